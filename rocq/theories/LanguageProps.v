(** C43: languages found in the text *)
From Verif Require Import Py PyFacts Text TextFacts Words WordsProofs Quantity RuleSpec RebulkFacts Rebulk Language.
From Coq Require Import Arith Lia Sorted ZifyBool.

(** two words of the input joined by one space, one dot, or one dash that is not followed by another dash after the second word *)
Definition is_word (s : str) (a b : nat) : Prop := maximal_run (fun c => (c < 128)%N /\ In c (lit " [](){}+*|=-_~#/\\.,;:")) s a b.
Definition joined (s : str) (a b : nat) : Prop :=
  exists m c, is_word s a m /\ is_word s (S m) b /\ nth_error s m = Some c /\
    (c = 32%N \/ c = 46%N \/ c = 45%N /\ nth_error s b <> Some 45%N).
Definition dots_as_spaces : str -> str := map (fun c => if (c =? 46)%N then 32%N else c).
(** the text [t] read at a:b *)
Definition reading (s : str) (a b : nat) (t : str) : Prop :=
  is_word s a b /\ t = slice a b s \/ joined s a b /\ t = dots_as_spaces (slice a b s).

Lemma replace_dots t : replace (lit ".") (lit " ") t = dots_as_spaces t.
Proof.
  unfold replace, dots_as_spaces. induction t as [|c t IH]; [reflexivity|]. cbn [replace_go map].
  change (startswith (lit ".") (c :: t)) with ((46 =? c)%N && true). rewrite Bool.andb_true_r, N.eqb_sym. destruct (c =? 46)%N; [change (32%N :: replace_go (lit ".") (lit " ") t 0 = 32%N :: map (fun c => if (c =? 46)%N then 32%N else c) t)|]; f_equal; exact IH.
Qed.
Lemma slice_one (s : str) m : m < List.length s -> slice m (S m) s = match nth_error s m with Some c => [c] | None => [] end.
Proof.
  intros H. unfold slice. replace (S m - m) with 1 by lia. revert s H. induction m as [|m IH]; intros [|c s] H; cbn in *; try lia; [reflexivity|]. apply IH; lia.
Qed.
Lemma slice_past (s : str) m : List.length s <= m -> slice m (S m) s = [].
Proof. intros H. unfold slice. rewrite skipn_all2 by exact H. apply firstn_nil. Qed.

(** a language word with its text and what follows *)
Definition proper (s : str) (w : lword) : Prop :=
  is_word s (lw_start w) (lw_end w) /\ lw_value w = slice (lw_start w) (lw_end w) s /\
  exists pre, iter_words s = pre ++ mk_word (lw_start w) (lw_end w) (lw_value w) :: lw_rest w.

Lemma lwords_In l w : In w (lwords l) <-> exists pre, l = pre ++ mk_word (lw_start w) (lw_end w) (lw_value w) :: lw_rest w.
Proof.
  induction l as [|x l IH]; cbn [lwords In].
  - split; [intros []|]. intros (pre & E). destruct pre; discriminate.
  - rewrite IH. split.
    + intros [<-|(pre & ->)]; [exists []; destruct x; reflexivity|]. exists (x :: pre); reflexivity.
    + intros ([|y pre] & E).
      * left. injection E as -> ->. destruct w; reflexivity.
      * right. injection E as -> ->. exists pre; reflexivity.
Qed.
Lemma word_proper s pre x r : iter_words s = pre ++ x :: r -> proper s (lword_of x r).
Proof.
  intros E. destruct (iter_words_spec s) as (Hsp & _ & Hi). unfold proper, lword_of. cbn [lw_start lw_end lw_value lw_rest].
  assert (In x (iter_words s)) as Hx by (rewrite E; apply in_app_iff; right; left; reflexivity).
  split; [apply Hi; exists x; auto|]. split; [rewrite Forall_forall in Hsp; apply Hsp; exact Hx|]. exists pre. rewrite E. destruct x; reflexivity.
Qed.
Lemma lwords_proper s w : In w (lwords (iter_words s)) <-> proper s w.
Proof.
  rewrite lwords_In. split.
  - intros (pre & E). pose proof (word_proper _ _ _ _ E) as P. destruct w; exact P.
  - intros (_ & _ & H). exact H.
Qed.
Lemma proper_of s a b : is_word s a b -> exists w, proper s w /\ lw_start w = a /\ lw_end w = b.
Proof.
  intros H. destruct (iter_words_spec s) as (_ & _ & Hi). apply Hi in H as (x & Hx & <- & <-). apply in_split in Hx as (l & r & E).
  exists (lword_of x r). split; [exact (word_proper _ _ _ _ E)|]. split; reflexivity.
Qed.
Lemma sorted_mid {A} (R : A -> A -> Prop) l x r y : StronglySorted R (l ++ x :: y :: r) -> R x y.
Proof.
  induction l as [|z l IH]; cbn; intros H; inversion H as [|? ? H1 H2]; subst; [|auto]. rewrite Forall_forall in H2. apply H2; left; reflexivity.
Qed.
Lemma sorted_In {A} (R : A -> A -> Prop) l x r y : StronglySorted R (l ++ x :: r) -> In y r -> R x y.
Proof.
  induction l as [|z l IH]; cbn; intros H Hy; inversion H as [|? ? H1 H2]; subst; [|auto]. rewrite Forall_forall in H2. auto.
Qed.
Lemma next_proper s w n : proper s w -> next_word w = Some n -> proper s n /\ lw_end w < lw_start n.
Proof.
  intros (Hw & Ht & pre & E) Hn. unfold next_word in Hn. destruct (lw_rest w) as [|x r] eqn:Er; [discriminate|]. injection Hn as <-. split.
  - apply (word_proper s (pre ++ [mk_word (lw_start w) (lw_end w) (lw_value w)]) x r). rewrite <- app_assoc. exact E.
  - destruct (iter_words_spec s) as (_ & Hs & _). rewrite E in Hs. apply sorted_mid in Hs. exact Hs.
Qed.
Lemma is_word_bounds s a b : is_word s a b -> a < b <= List.length s.
Proof. intros H; exact (proj1 H). Qed.

(** the extended word *)
Lemma extended_sound s w e : proper s w -> extended_word s w = Some e ->
  lw_start e = lw_start w /\ joined s (lw_start e) (lw_end e) /\ lw_value e = dots_as_spaces (slice (lw_start e) (lw_end e) s).
Proof.
  intros P H. unfold extended_word in H. destruct (next_word w) as [n|] eqn:En; [|discriminate].
  destruct (next_proper s w n P En) as [Pn Hlt].
  destruct (orb _ _) eqn:Ec in H; [|discriminate]. injection H as <-. cbn [lw_start lw_end lw_value].
  destruct P as (Hw & _ & _), Pn as (Hn & _ & _). pose proof (is_word_bounds _ _ _ Hw). pose proof (is_word_bounds _ _ _ Hn).
  split; [reflexivity|]. rewrite replace_dots. split; [|reflexivity].
  assert (L : List.length (slice (lw_end w) (lw_start n) s) = lw_start n - lw_end w) by (unfold slice; rewrite firstn_length, skipn_length; lia).
  assert (lw_start n = S (lw_end w)) as En1.
  { apply Bool.orb_true_iff in Ec as [Ec|Ec].
    - apply Bool.andb_true_iff in Ec as [Ec _]. apply str_eqb_eq in Ec. rewrite Ec in L. cbn in L. lia.
    - apply smem_In in Ec as [Ec|[Ec|[]]]; rewrite <- Ec in L; cbn in L; lia. }
  rewrite En1 in *. rewrite slice_one in Ec by lia. destruct (nth_error s (lw_end w)) as [c|] eqn:Ech; [|apply nth_error_None in Ech; lia].
  exists (lw_end w), c. split; [exact Hw|]. split; [exact Hn|]. split; [exact Ech|].
  apply Bool.orb_true_iff in Ec as [Ec|Ec].
  - apply Bool.andb_true_iff in Ec as [Ec Ed]. apply str_eqb_eq in Ec. cbn in Ec. injection Ec as ->. right; right. split; [reflexivity|].
    intros Hb. apply Bool.negb_true_iff in Ed. rewrite Nat.add_1_r in Ed. rewrite slice_one in Ed by (apply nth_error_Some; congruence). rewrite Hb in Ed.
    rewrite str_eqb_refl in Ed. discriminate.
  - apply smem_In in Ec as [Ec|[Ec|[]]]; cbn in Ec; injection Ec as <-; auto.
Qed.
Lemma extended_complete s w b : proper s w -> joined s (lw_start w) b ->
  exists e, extended_word s w = Some e /\ lw_start e = lw_start w /\ lw_end e = b.
Proof.
  intros P (m & c & Hw & Hn & Hc & Hj). pose proof P as (Hw0 & _ & pre & E).
  assert (m = lw_end w).
  { destruct Hw as (L1 & I1 & _ & T1), Hw0 as (L2 & I2 & _ & T2).
    destruct (Nat.lt_trichotomy m (lw_end w)) as [H|[H|H]]; [|exact H|].
    - destruct T1 as [T1|(d & Hd & Hs)]; [lia|]. exfalso. exact (I2 m d ltac:(lia) Hd Hs).
    - destruct T2 as [T2|(d & Hd & Hs)]; [lia|]. exfalso. exact (I1 (lw_end w) d ltac:(lia) Hd Hs). }
  subst m. destruct (iter_words_spec s) as (_ & Hs & Hi). pose proof (is_word_bounds _ _ _ Hn) as Bn. pose proof (is_word_bounds _ _ _ Hw) as Bw.
  pose proof Hn as Hn'. apply Hi in Hn' as (y & Hy & Y1 & Y2). rewrite E in Hy, Hs.
  assert (In y (lw_rest w)) as Hyr.
  { apply in_app_iff in Hy as [Hy|[<-|Hy]]; [|cbn in Y1; lia|exact Hy]. exfalso.
    apply in_split in Hy as (l1 & l2 & ->). rewrite <- app_assoc in Hs. cbn in Hs. apply sorted_In with (y := mk_word (lw_start w) (lw_end w) (lw_value w)) in Hs; [cbn in Hs; lia|].
    apply in_app_iff; right; left; reflexivity. }
  unfold extended_word, next_word. destruct (lw_rest w) as [|x r] eqn:Er; [destruct Hyr|].
  assert (x = y) as ->.
  { destruct Hyr as [->|Hyr]; [reflexivity|]. exfalso. pose proof (sorted_mid _ _ _ _ _ Hs) as H1. cbn in H1.
    replace (pre ++ mk_word (lw_start w) (lw_end w) (lw_value w) :: x :: r) with ((pre ++ [mk_word (lw_start w) (lw_end w) (lw_value w)]) ++ x :: r) in Hs by (rewrite <- app_assoc; reflexivity).
    pose proof (sorted_In _ _ _ _ _ Hs Hyr) as H2. cbn in H2. assert (In x (iter_words s)) as Hx by (rewrite E; apply in_app_iff; right; right; left; reflexivity).
    assert (is_word s (w_start x) (w_end x)) as Hx' by (apply Hi; exists x; auto). apply is_word_bounds in Hx'. lia. }
  unfold lword_of. cbn [lw_start lw_end lw_value lw_rest]. rewrite Y1, Y2. rewrite slice_one by lia. rewrite Hc.
  assert (Hcond : (str_eqb [c] (lit "-") && negb (str_eqb [c] (slice b (b + 1) s)) || smem [c] [lit " "; lit "."]) = true).
  { destruct Hj as [->|[->|[-> Hb]]]; [apply Bool.orb_true_iff; right; reflexivity..|]. apply Bool.orb_true_iff; left. apply Bool.andb_true_iff. split; [reflexivity|].
    apply Bool.negb_true_iff. destruct (str_eqb _ _) eqn:Eq; [|reflexivity]. exfalso. apply str_eqb_eq in Eq. rewrite Nat.add_1_r in Eq.
    destruct (Nat.lt_ge_cases b (List.length s)) as [Hl|Hl]; [rewrite slice_one in Eq by exact Hl|rewrite slice_past in Eq by exact Hl; discriminate].
    destruct (nth_error s b) as [d|]; [|discriminate]. injection Eq as <-. congruence. }
  rewrite Hcond. eexists. split; [reflexivity|]. split; reflexivity.
Qed.
Lemma both_reading s w x : proper s w -> In x (both_words s w) -> lw_start x = lw_start w /\ reading s (lw_start x) (lw_end x) (lw_value x).
Proof.
  intros P H. unfold both_words in H. apply in_app_iff in H as [H|[<-|[]]].
  - destruct (extended_word s w) as [e|] eqn:Ee; [|destruct H]. destruct H as [<-|[]]. destruct (extended_sound s w e P Ee) as (H1 & H2 & H3). split; [exact H1|]. right; auto.
  - destruct P as (P1 & P2 & _). split; [reflexivity|]. left; auto.
Qed.
Lemma first_some_In {A B} (f : A -> option B) l y : first_some f l = Some y -> exists x, In x l /\ f x = Some y.
Proof.
  induction l as [|x l IH]; cbn; [discriminate|]. destruct (f x) as [z|] eqn:E; [intros H; injection H as <-; exists x; auto|]. intros H. destruct (IH H) as (x' & H1 & H2). exists x'; auto.
Qed.
Lemma opt_list_In {A} (o : option A) x : In x (opt_list o) <-> o = Some x.
Proof. destruct o; cbn; [split; [intros [->|[]]; reflexivity|intros H; injection H as ->; auto]|split; [intros []|discriminate]]. Qed.

(** which of the languages found are given: those of a property that has a real language come without its undetermined ones;
    those of a property that has only undetermined ones come without "multiple" *)
Definition real_language (m : lmatch) : Prop := l_id (lm_lang m) <> lit "und" /\ l_id (lm_lang m) <> lit "mul".
Definition undetermined (m : lmatch) : Prop := l_id (lm_lang m) = lit "und".
Definition multiple (m : lmatch) : Prop := l_id (lm_lang m) = lit "mul".
Lemma und_iff m : und m = true <-> undetermined m.
Proof. apply str_eqb_eq. Qed.
Lemma mul_iff m : mul m = true <-> multiple m.
Proof. apply str_eqb_eq. Qed.
Lemma regular_iff m : regular m = true <-> real_language m.
Proof.
  unfold regular, real_language. rewrite Bool.andb_true_iff, !Bool.negb_true_iff. pose proof (und_iff m) as U. pose proof (mul_iff m) as M. unfold undetermined, multiple in *.
  destruct (und m), (mul m); intuition (try discriminate).
Qed.
Lemma has_key_iff p k l : has_key p k l = true <-> exists m, In m l /\ p m = true /\ lm_name m = k.
Proof.
  unfold has_key. rewrite existsb_exists. split; intros (m & H1 & H2); exists m.
  - apply Bool.andb_true_iff in H2 as [H2 H3]. apply str_eqb_eq in H3. auto.
  - destruct H2 as [H2 H3]. split; [exact H1|]. rewrite H2, H3, str_eqb_refl. reflexivity.
Qed.
Theorem C43_report : forall l m, In m (report l) <-> In m l /\
  (real_language m \/
   undetermined m /\ (~ exists m', In m' l /\ lm_name m' = lm_name m /\ real_language m') \/
   multiple m /\ ((exists m', In m' l /\ lm_name m' = lm_name m /\ real_language m') \/ ~ exists m', In m' l /\ lm_name m' = lm_name m /\ undetermined m')).
Proof.
  intros l m. unfold report. rewrite !in_app_iff, !filter_In, !Bool.andb_true_iff, Bool.orb_true_iff, !Bool.negb_true_iff, regular_iff, und_iff, mul_iff.
  assert (R : has_key regular (lm_name m) l = true <-> exists m', In m' l /\ lm_name m' = lm_name m /\ real_language m').
  { rewrite has_key_iff. split; intros (x & H); exists x; rewrite regular_iff in *; tauto. }
  assert (U : has_key und (lm_name m) l = true <-> exists m', In m' l /\ lm_name m' = lm_name m /\ undetermined m').
  { rewrite has_key_iff. split; intros (x & H); exists x; rewrite und_iff in *; tauto. }
  rewrite <- R, <- U. destruct (has_key regular _ _), (has_key und _ _); intuition (try discriminate).
Qed.
Print Assumptions C43_report.

Lemma reading_start s a b t : reading s a b t -> exists e, is_word s a e.
Proof. intros [[H _]|[(m & c & H & _) _]]; eauto. Qed.
Lemma is_word_end s a b b' : is_word s a b -> is_word s a b' -> b = b'.
Proof.
  intros (L1 & I1 & _ & T1) (L2 & I2 & _ & T2). destruct (Nat.lt_trichotomy b b') as [H|[H|H]]; [|exact H|].
  - destruct T1 as [T1|(d & Hd & Hs)]; [lia|]. exfalso. exact (I2 b d ltac:(lia) Hd Hs).
  - destruct T2 as [T2|(d & Hd & Hs)]; [lia|]. exfalso. exact (I1 b' d ltac:(lia) Hd Hs).
Qed.
Section Language.
  Context (fromguessit : str -> option lang) (allowed weak_affixes : list str).
  (** the text [x] is an accepted name of the language [l]: babelfish knows it, and its name, its code of two letters or its code of three letters is allowed *)
  Definition same_text (x y : str) : Prop := lower x = lower y.
  Definition names (x : str) (l : lang) : Prop :=
    fromguessit (lower x) = Some l /\
    exists a, In a allowed /\
      ((exists n, l_name l = Some n /\ same_text a n) \/ (exists n, l_alpha2 l = Some n /\ same_text a n) \/ same_text a (l_alpha3 l)).
  Lemma allowed_text_iff t : allowed_text allowed t = true <-> exists n a, t = Some n /\ In a allowed /\ same_text a n.
  Proof.
    unfold allowed_text, same_text. destruct t as [n|]; [|split; [discriminate|intros (n & a & E & _); discriminate]].
    rewrite smem_In, in_map_iff. split; [intros (a & E & H); exists n, a; auto|]. intros (n' & a & E & H & H'). injection E as ->. exists a; auto.
  Qed.
  Lemma parse_iff x l : parse_language fromguessit allowed (lower x) = Some l <-> names x l.
  Proof.
    unfold parse_language, names. destruct (fromguessit (lower x)) as [l0|]; [|split; [discriminate|intros [E _]; discriminate]].
    destruct (orb _ _) eqn:Eo.
    - assert (G : exists a, In a allowed /\ ((exists n, l_name l0 = Some n /\ same_text a n) \/ (exists n, l_alpha2 l0 = Some n /\ same_text a n) \/ same_text a (l_alpha3 l0))).
      { rewrite !Bool.orb_true_iff, !allowed_text_iff in Eo. destruct Eo as [[(n & a & H1 & H2 & H3)|(n & a & H1 & H2 & H3)]|(n & a & H1 & H2 & H3)]; exists a; (split; [exact H2|]).
        - left; eauto.
        - right; left; eauto.
        - injection H1 as <-. auto. }
      split; [|intros [E _]; congruence]. intros E; injection E as <-. split; [reflexivity|]. destruct G as (a & Ha & G). exists a. split; [exact Ha|exact G].
    - split; [discriminate|]. intros (E & a & Ha & G). injection E as ->. exfalso. rewrite <- Bool.not_true_iff_false in Eo. apply Eo. rewrite !Bool.orb_true_iff, !allowed_text_iff.
      destruct G as [(n & E & H)|[(n & E & H)|H]]; [left; left|left; right|right]; eauto 6.
  Qed.
  Lemma create_iff k w m : create fromguessit allowed k w = Some m <->
    lm_start m = lw_start w /\ lm_end m = lw_end w /\ lm_name m = k /\ lm_word m = lw_value w /\ names (lw_value w) (lm_lang m).
  Proof.
    unfold create. destruct (parse_language _ _ _) as [l|] eqn:E.
    - apply parse_iff in E. split; [intros H; injection H as <-; auto|]. destruct m as [a b k' l' t]; cbn. intros (-> & -> & -> & -> & N). destruct E as [E _], N as [N _]. congruence.
    - split; [discriminate|]. intros (_ & _ & _ & _ & N). apply parse_iff in N. congruence.
  Qed.

  (** the affixes of a property: those of subtitle_language do not count when it is disabled *)
  Definition affix_of (off : bool) (subtitle language : list str) (name part : str) : Prop :=
    name = lit "subtitle_language" /\ off = false /\ In part subtitle \/ name = lit "language" /\ In part language.
  Lemma affix_map_iff off subtitle language k l : In (k, l) (affix_map off subtitle language) <->
    k = lit "subtitle_language" /\ off = false /\ l = subtitle \/ k = lit "language" /\ l = language.
  Proof.
    unfold affix_map. rewrite in_app_iff. destruct off; cbn [In].
    - split; [intros [[]|[H|[]]]; injection H as <- <-; auto|]. intros [(_ & H & _)|(-> & ->)]; [discriminate|auto].
    - split; [intros [[H|[]]|[H|[]]]; injection H as <- <-; auto|]. intros [(-> & _ & ->)|(-> & ->)]; auto.
  Qed.

  (** what a language match may come from. [sp], [ss]: the prefixes and suffixes of subtitles, [lp], [ls]: those of languages *)
  Inductive found (s : str) (off : bool) (sp ss lp ls : list str) (m : lmatch) : Prop :=
  | found_plain : lm_name m = lit "language" ->
      reading s (lm_start m) (lm_end m) (lm_word m) -> found s off sp ss lp ls m
  | found_prefixed t part : affix_of off sp lp (lm_name m) part -> lower t = part ++ lm_word m -> lm_word m <> [] ->
      reading s (lm_start m) (lm_end m) t -> found s off sp ss lp ls m
  | found_suffixed t part : affix_of off ss ls (lm_name m) part -> lower t = lm_word m ++ part -> lm_word m <> [] ->
      reading s (lm_start m) (lm_end m) t -> found s off sp ss lp ls m
  | found_after a b t : affix_of off sp lp (lm_name m) (lower t) -> reading s a b t ->
      (** the word at [a] is one separator before the word of the language *)
      (exists e, is_word s a e /\ lm_start m = S e) ->
      reading s (lm_start m) (lm_end m) (lm_word m) -> found s off sp ss lp ls m
  | found_before a b t : affix_of off ss ls (lm_name m) (lower t) -> reading s a b t ->
      (exists e, is_word s (lm_start m) e /\ a = S e) ->
      reading s (lm_start m) (lm_end m) (lm_word m) -> found s off sp ss lp ls m
  | found_alone t : affix_of off sp lp (lm_name m) (lower t) \/ affix_of off ss ls (lm_name m) (lower t) ->
      ~ In (lower t) weak_affixes -> lm_word m = lit "und" ->
      reading s (lm_start m) (lm_end m) t -> found s off sp ss lp ls m.

  Lemma find_language_sound s k w m : proper s w -> find_language fromguessit allowed s k w = Some m ->
    lm_name m = k /\ lm_start m = lw_start w /\ reading s (lm_start m) (lm_end m) (lm_word m) /\ names (lm_word m) (lm_lang m).
  Proof.
    intros P H. apply first_some_In in H as (x & Hx & H). apply create_iff in H as (H1 & H2 & H3 & H4 & H5).
    destruct (both_reading s w x P Hx) as [R1 R2]. rewrite H1, H2, H4. auto.
  Qed.
  Lemma prefix_strip t part : startswith part t = true -> t = part ++ skipn (List.length part) t.
  Proof. intros H. apply startswith_app in H as (r & ->). rewrite skipn_app, skipn_all, Nat.sub_diag. reflexivity. Qed.
  Lemma suffix_strip t part : endswith part t = true -> t = firstn (List.length t - List.length part) t ++ part.
  Proof.
    intros H. apply endswith_app in H as (r & ->). rewrite app_length. replace (List.length r + List.length part - List.length part) with (List.length r) by lia.
    rewrite firstn_app, firstn_all, Nat.sub_diag. cbn. rewrite app_nil_r. reflexivity.
  Qed.
  Lemma find_match_sound s suffix affixes w f m :
    proper s w -> (forall x, f = Some x -> proper s x) ->
    find_match fromguessit allowed weak_affixes s suffix affixes w f = Some m ->
    exists cur part parts, In cur (both_words s w) /\ In (lm_name m, parts) affixes /\ In part parts /\ names (lm_word m) (lm_lang m) /\
      ((lm_word m <> [] /\ lm_start m = lw_start cur /\ lm_end m = lw_end cur /\ lower (lw_value cur) = (if suffix then lm_word m ++ part else part ++ lm_word m)) \/
       (lower (lw_value cur) = part /\ exists x, f = Some x /\ close w x = true /\ lm_start m = lw_start x /\ reading s (lm_start m) (lm_end m) (lm_word m)) \/
       (lower (lw_value cur) = part /\ ~ In part weak_affixes /\ lm_word m = lit "und" /\ lm_start m = lw_start cur /\ lm_end m = lw_end cur)).
  Proof.
    intros P Pf H. apply first_some_In in H as (cur & Hc & H). apply first_some_In in H as ((k & parts) & Hk & H). apply first_some_In in H as (part & Hp & H). cbn [fst snd] in *.
    unfold affix_match in H. destruct (is_affix suffix (lower (lw_value cur)) part) eqn:Ea; cbn [negb] in H; [|discriminate].
    assert (Et : lower (lw_value cur) = if suffix then strip_affix suffix (lower (lw_value cur)) part ++ part else part ++ strip_affix suffix (lower (lw_value cur)) part).
    { destruct suffix; cbn in *; [apply suffix_strip|apply prefix_strip]; exact Ea. }
    destruct (strip_affix suffix (lower (lw_value cur)) part) as [|c v] eqn:Es.
    - assert (Et' : lower (lw_value cur) = part) by (destruct suffix; [exact Et|rewrite app_nil_r in Et; exact Et]).
      destruct (match f with Some f0 => _ | None => None end) as [x|] eqn:Ef.
      + injection H as <-. destruct f as [f0|]; [|discriminate]. destruct (close w f0) eqn:Ecl; [|discriminate].
        apply find_language_sound in Ef as (H1 & H2 & H3 & H4); [|apply Pf; reflexivity]. subst k. exists cur, part, parts. repeat (split; [assumption|]). right; left. split; [exact Et'|]. exists f0. auto.
      + destruct (smem part weak_affixes) eqn:Ew; cbn [negb] in H; [discriminate|]. apply create_iff in H as (H1 & H2 & H3 & H4 & H5). cbn [lw_start lw_end lw_value] in *. subst k. rewrite <- H4 in H5.
        exists cur, part, parts. repeat (split; [assumption|]). right; right. split; [exact Et'|]. split; [|auto]. rewrite <- smem_In. congruence.
    - apply create_iff in H as (H1 & H2 & H3 & H4 & H5). cbn [lw_start lw_end lw_value] in *. subst k. rewrite <- H4 in *. exists cur, part, parts. repeat (split; [assumption|]). left. split; [congruence|]. auto.
  Qed.
  Lemma iter_sound s off sp ss lp ls m :
    In m (iter_language_matches fromguessit allowed weak_affixes s (affix_map off sp lp) (affix_map off ss ls)) ->
    names (lm_word m) (lm_lang m) /\ found s off sp ss lp ls m.
  Proof.
    intros H. unfold iter_language_matches in H. apply in_flat_map in H as (w & Hw & H). apply lwords_proper in Hw.
    unfold candidate_matches in H. apply in_app_iff in H as [H|H]; [|apply in_app_iff in H as [H|H]].
    - apply opt_list_In in H. apply find_match_sound in H; [|exact Hw|].
      2:{ intros x Hx. exact (proj1 (next_proper s w x Hw Hx)). }
      destruct H as (cur & part & parts & Hcur & Hk & Hp & N & H). split; [exact N|]. destruct (both_reading s w cur Hw Hcur) as [R1 R2].
      assert (A : affix_of off sp lp (lm_name m) part).
      { apply affix_map_iff in Hk as [(E1 & E2 & ->)|(E1 & ->)]; [left|right]; auto. }
      destruct H as [(H1 & H2 & H3 & H4)|[(H1 & x & H2 & H3 & H4 & H5)|(H1 & H2 & H3 & H4 & H5)]].
      + rewrite <- H2, <- H3 in R2. eapply found_prefixed; eauto.
      + subst part. eapply found_after; [exact A|exact R2| |exact H5]. destruct (next_proper s w x Hw H2) as [Px L].
        exists (lw_end w). rewrite R1. split; [exact (proj1 Hw)|]. rewrite H4. destruct Hw as [Hw _], Px as [Px _]. apply is_word_bounds in Hw. apply is_word_bounds in Px.
        unfold close in H3. lia.
      + subst part. rewrite <- H4, <- H5 in R2. eapply found_alone; eauto.
    - destruct (next_word w) as [n|] eqn:En; [|destruct H]. apply opt_list_In in H. destruct (next_proper s w n Hw En) as [Pn L].
      apply find_match_sound in H; [|exact Pn|].
      2:{ intros x Hx. injection Hx as <-. exact Hw. }
      destruct H as (cur & part & parts & Hcur & Hk & Hp & N & H). split; [exact N|]. destruct (both_reading s n cur Pn Hcur) as [R1 R2].
      assert (A : affix_of off ss ls (lm_name m) part).
      { apply affix_map_iff in Hk as [(E1 & E2 & ->)|(E1 & ->)]; [left|right]; auto. }
      destruct H as [(H1 & H2 & H3 & H4)|[(H1 & x & H2 & H3 & H4 & H5)|(H1 & H2 & H3 & H4 & H5)]].
      + rewrite <- H2, <- H3 in R2. eapply found_suffixed; eauto.
      + subst part. injection H2 as <-. eapply found_before; [exact A|exact R2| |exact H5]. exists (lw_end w). rewrite H4. split; [exact (proj1 Hw)|].
        destruct Hw as [Hw _], Pn as [Pn _]. apply is_word_bounds in Hw. apply is_word_bounds in Pn. rewrite R1. unfold close in H3. lia.
      + subst part. rewrite <- H4, <- H5 in R2. eapply found_alone; eauto.
    - apply opt_list_In in H. apply find_language_sound in H as (H1 & H2 & H3 & H4); [|exact Hw]. split; [exact H4|]. apply found_plain; auto.
  Qed.

  (** C43: every language given is an allowed language named by its text, and its text is where the span says: a word or two joined
      words, less an affix of its property, or next to an affix of its property, or a strong affix alone, which is then undetermined *)
  Theorem C43_sound : forall s off sp ss lp ls m,
    In m (find_languages fromguessit allowed weak_affixes s off sp ss lp ls) ->
    names (lm_word m) (lm_lang m) /\ found s off sp ss lp ls m /\
    (lm_name m = lit "language" \/ lm_name m = lit "subtitle_language" /\ off = false).
  Proof.
    intros s off sp ss lp ls m H. apply C43_report in H as [H _]. apply iter_sound in H as [N F]. split; [exact N|]. split; [exact F|].
    destruct F as [E R|t part A|t part A|a b t A|a b t A|t A]; [auto|..]; try destruct A as [A|A]; unfold affix_of in A; tauto.
  Qed.

  Lemma first_some_ex {A B} (f : A -> option B) l x y : In x l -> f x = Some y -> exists z, first_some f l = Some z.
  Proof.
    induction l as [|z l IH]; [intros []|]. cbn. intros [->|Hx] E; [rewrite E; eauto|]. destruct (f z); eauto.
  Qed.
  Lemma first_some_all {A B} (f : A -> option B) l x y : In x l -> f x = Some y -> (forall z, In z l -> z = x \/ f z = None) -> first_some f l = Some y.
  Proof.
    induction l as [|z l IH]; [intros []|]. cbn. intros Hx E Ho. destruct (Ho z (or_introl eq_refl)) as [->|En]; [rewrite E; reflexivity|]. rewrite En.
    destruct Hx as [->|Hx]; [congruence|]. apply IH; auto.
  Qed.
  Lemma real_reported s off sp ss lp ls m : real_language m ->
    In m (iter_language_matches fromguessit allowed weak_affixes s (affix_map off sp lp) (affix_map off ss ls)) ->
    In m (find_languages fromguessit allowed weak_affixes s off sp ss lp ls).
  Proof. intros R H. apply C43_report. auto. Qed.

  (** C43: a word, or two joined words, naming an allowed language is given as a language; two joined words come before the first of them *)
  Theorem C43_complete : forall s off sp ss lp ls a b t l,
    reading s a b t -> names t l -> l_id l <> lit "und" -> l_id l <> lit "mul" ->
    joined s a b \/ (~ exists b' t' l', joined s a b' /\ reading s a b' t' /\ names t' l') ->
    In (mk_lm a b (lit "language") l t) (find_languages fromguessit allowed weak_affixes s off sp ss lp ls).
  Proof.
    intros s off sp ss lp ls a b t l R N U M J. apply real_reported; [split; assumption|]. destruct (reading_start _ _ _ _ R) as (e & We). destruct (proper_of s a e We) as (w & P & Ea & Ee).
    unfold iter_language_matches. apply in_flat_map. exists w. split; [apply lwords_proper; exact P|]. unfold candidate_matches. rewrite !in_app_iff. right; right. apply opt_list_In.
    unfold find_language, both_words.
    assert (C : forall w', lw_start w' = a -> lw_end w' = b -> lw_value w' = t -> create fromguessit allowed (lit "language") w' = Some (mk_lm a b (lit "language") l t)).
    { intros w' E1 E2 E3. apply create_iff. cbn. rewrite E1, E2, E3. auto. }
    destruct R as [[W ->]|[Jn ->]].
    - assert (Eb : e = b) by (eapply is_word_end; eassumption). rewrite Eb in Ee. destruct J as [J|J].
      { exfalso. destruct J as (m & c & Jm & Jn & Jc & _). pose proof (is_word_end _ _ _ _ W Jm). subst m. apply is_word_bounds in Jn. lia. }
      assert (Cw : create fromguessit allowed (lit "language") w = Some (mk_lm a b (lit "language") l (slice a b s))).
      { apply C; auto. rewrite <- Ea, <- Ee. exact (proj1 (proj2 P)). }
      destruct (extended_word s w) as [x|] eqn:Ex; cbn [opt_list app first_some]; [|rewrite Cw; reflexivity].
      destruct (create _ _ _ x) as [m|] eqn:Ec; [|rewrite Cw; reflexivity]. exfalso. apply J. apply create_iff in Ec as (_ & _ & _ & _ & Nx).
      destruct (extended_sound s w x P Ex) as (E1 & E2 & E3). rewrite E1, Ea in E2. exists (lw_end x), (lw_value x), (lm_lang m). split; [exact E2|]. split; [right; split; [exact E2|]|exact Nx].
      rewrite E3, E1, Ea. reflexivity.
    - assert (Jw : joined s (lw_start w) b) by (rewrite Ea; exact Jn). destruct (extended_complete s w b P Jw) as (x & Ex & E1 & E2). rewrite Ex. cbn [opt_list app first_some].
      rewrite (C x); [reflexivity|congruence|exact E2|]. destruct (extended_sound s w x P Ex) as (_ & _ & E3). rewrite E3, E1, E2, Ea. reflexivity.
  Qed.

  (** C43: a word made of a prefix of a property and of the text of an allowed language is given as that language for that property, when the
      word is not joined with the next one and no other prefix would do; same for a suffix, except in the first word of the text *)
  Lemma find_match_only (s : str) (suffix : bool) (affixes : list (str * list str)) (w : lword) (f : option lword) (k : str) (parts : list str) (part x : str) (l : lang) :
    (forall b, ~ joined s (lw_start w) b) -> proper s w -> In (k, parts) affixes -> In part parts -> x <> [] -> names x l -> lower x = x ->
    lower (lw_value w) = (if suffix then x ++ part else part ++ x) ->
    (forall k' parts' part', In (k', parts') affixes -> In part' parts' -> is_affix suffix (lower (lw_value w)) part' = true -> k' = k /\ parts' = parts /\ part' = part) ->
    find_match fromguessit allowed weak_affixes s suffix affixes w f = Some (mk_lm (lw_start w) (lw_end w) k l x).
  Proof.
    intros NJ P Hk Hp Hx N Hl Ht U. unfold find_match, both_words. destruct (extended_word s w) as [e|] eqn:Ee.
    { exfalso. destruct (extended_sound s w e P Ee) as (E1 & E2 & _). rewrite E1 in E2. exact (NJ _ E2). }
    cbn [opt_list app first_some].
    assert (Ia : is_affix suffix (lower (lw_value w)) part = true).
    { rewrite Ht. destruct suffix; cbn; [apply endswith_app|apply startswith_app]; eauto. }
    assert (Is : strip_affix suffix (lower (lw_value w)) part = x).
    { rewrite Ht. destruct suffix; cbn.
      - rewrite app_length. replace (List.length x + List.length part - List.length part) with (List.length x) by lia. rewrite firstn_app, firstn_all, Nat.sub_diag. cbn. apply app_nil_r.
      - rewrite skipn_app, skipn_all, Nat.sub_diag. reflexivity. }
    assert (G : first_some (fun kp => first_some (affix_match fromguessit allowed weak_affixes s suffix w f w (fst kp)) (snd kp)) affixes = Some (mk_lm (lw_start w) (lw_end w) k l x)).
    { apply (first_some_all _ _ (k, parts)); [exact Hk| |].
      - cbn [fst snd]. apply (first_some_all _ _ part); [exact Hp| |].
        + unfold affix_match. rewrite Ia, Is. cbn [negb]. destruct x as [|c x]; [congruence|]. apply create_iff. cbn. auto 6.
        + intros p' Hp'. unfold affix_match. destruct (is_affix suffix (lower (lw_value w)) p') eqn:E'; [|right; reflexivity]. left. destruct (U k parts p' Hk Hp' E') as (_ & _ & E). exact E.
      - intros [k' parts'] Hk'. cbn [fst snd]. destruct (first_some _ parts') as [m|] eqn:Em; [|right; reflexivity]. left. apply first_some_In in Em as (p' & Hp' & Em). unfold affix_match in Em.
        destruct (is_affix suffix (lower (lw_value w)) p') eqn:E'; [|discriminate]. destruct (U k' parts' p' Hk' Hp' E') as (E1 & E2 & _). congruence. }
    rewrite G. reflexivity.
  Qed.
  Lemma unique_affix off sp lp k part (Q : str -> Prop) :
    (forall k' p', affix_of off sp lp k' p' -> Q p' -> k' = k /\ p' = part) ->
    forall parts, In (k, parts) (affix_map off sp lp) -> forall k' parts' p', In (k', parts') (affix_map off sp lp) -> In p' parts' -> Q p' -> k' = k /\ parts' = parts /\ p' = part.
  Proof.
    intros U parts Hk k' parts' p' Hk' Hp' Hq. assert (A : affix_of off sp lp k' p') by (apply affix_map_iff in Hk' as [(E1 & E2 & ->)|(E1 & ->)]; [left|right]; auto).
    destruct (U k' p' A Hq) as [-> ->]. split; [reflexivity|]. split; [|reflexivity].
    apply affix_map_iff in Hk as [(E1 & E2 & ->)|(E1 & ->)]; apply affix_map_iff in Hk' as [(E3 & E4 & ->)|(E3 & ->)]; try reflexivity; exfalso; rewrite E1 in E3; discriminate E3.
  Qed.
  Lemma affix_in off sp lp k p : affix_of off sp lp k p -> exists parts, In (k, parts) (affix_map off sp lp) /\ In p parts.
  Proof. intros [(-> & -> & H)|(-> & H)]; [exists sp|exists lp]; (split; [apply affix_map_iff|]; auto). Qed.
  Theorem C43_prefix : forall s off sp ss lp ls a b name part x l,
    is_word s a b -> (forall b', ~ joined s a b') ->
    lower (slice a b s) = part ++ x -> affix_of off sp lp name part -> x <> [] -> lower x = x -> names x l -> l_id l <> lit "und" -> l_id l <> lit "mul" ->
    (forall name' part', affix_of off sp lp name' part' -> (exists r, lower (slice a b s) = part' ++ r) -> name' = name /\ part' = part) ->
    In (mk_lm a b name l x) (find_languages fromguessit allowed weak_affixes s off sp ss lp ls).
  Proof.
    intros s off sp ss lp ls a b name part x l W NJ Ht A Hx Hl N U M Un. apply real_reported; [split; assumption|]. destruct (proper_of s a b W) as (w & P & Ea & Ee).
    unfold iter_language_matches. apply in_flat_map. exists w. split; [apply lwords_proper; exact P|]. unfold candidate_matches. rewrite in_app_iff. left. apply opt_list_In.
    destruct (affix_in _ _ _ _ _ A) as (parts & Hk & Hp). assert (Ev : lw_value w = slice a b s) by (rewrite <- Ea, <- Ee; exact (proj1 (proj2 P))).
    assert (G := find_match_only s false (affix_map off sp lp) w (next_word w) name parts part x l). rewrite Ea, Ee, Ev in G. apply G; auto.
    apply (unique_affix off sp lp name part (fun p => is_affix false (lower (slice a b s)) p = true)); [|exact Hk]. intros k' p' A' Q. cbn in Q. apply startswith_app in Q. exact (Un k' p' A' Q).
  Qed.
  Theorem C43_suffix : forall s off sp ss lp ls a0 b0 a b name part x l,
    is_word s a0 b0 -> b0 < a -> is_word s a b -> (forall b', ~ joined s a b') ->
    lower (slice a b s) = x ++ part -> affix_of off ss ls name part -> x <> [] -> lower x = x -> names x l -> l_id l <> lit "und" -> l_id l <> lit "mul" ->
    (forall name' part', affix_of off ss ls name' part' -> (exists r, lower (slice a b s) = r ++ part') -> name' = name /\ part' = part) ->
    In (mk_lm a b name l x) (find_languages fromguessit allowed weak_affixes s off sp ss lp ls).
  Proof.
    intros s off sp ss lp ls a0 b0 a b name part x l W0 L0 W NJ Ht A Hx Hl N U M Un. apply real_reported; [split; assumption|]. destruct (proper_of s a b W) as (w & P & Ea & Ee).
    assert (Hpre : exists v, proper s v /\ next_word v = Some w).
    { pose proof P as (_ & _ & pre & E). destruct (iter_words_spec s) as (_ & Hs & Hi). apply Hi in W0 as (y & Hy & Y1 & Y2). destruct (exists_last (l := pre)) as (pre' & z & Ez).
      - intros ->. rewrite E in Hs, Hy. cbn in Hs, Hy. destruct Hy as [<-|Hy]; [cbn in Y1, Y2; rewrite Ee in Y2; apply is_word_bounds in W; lia|]. inversion Hs as [|? ? _ Hf]; subst. rewrite Forall_forall in Hf. specialize (Hf y Hy). cbn in Hf.
        assert (is_word s (w_start y) (w_end y)) as Wy by (apply Hi; exists y; split; [rewrite E; right; exact Hy|auto]). apply is_word_bounds in Wy. apply is_word_bounds in W. lia.
      - rewrite Ez in E. rewrite <- app_assoc in E. cbn in E. exists (lword_of z (mk_word (lw_start w) (lw_end w) (lw_value w) :: lw_rest w)). split; [exact (word_proper _ _ _ _ E)|]. unfold next_word, lword_of. cbn. destruct w; reflexivity. }
    destruct Hpre as (v & Pv & Ev').
    unfold iter_language_matches. apply in_flat_map. exists v. split; [apply lwords_proper; exact Pv|]. unfold candidate_matches. rewrite !in_app_iff. right; left. rewrite Ev'. apply opt_list_In.
    destruct (affix_in _ _ _ _ _ A) as (parts & Hk & Hp). assert (Ev : lw_value w = slice a b s) by (rewrite <- Ea, <- Ee; exact (proj1 (proj2 P))).
    assert (G := find_match_only s true (affix_map off ss ls) w (Some v) name parts part x l). rewrite Ea, Ee, Ev in G. apply G; auto.
    apply (unique_affix off ss ls name part (fun p => is_affix true (lower (slice a b s)) p = true)); [|exact Hk]. intros k' p' A' Q. cbn in Q. apply endswith_app in Q. exact (Un k' p' A' Q).
  Qed.
End Language.
Print Assumptions C43_sound.
Print Assumptions C43_complete.
Print Assumptions C43_prefix.
Print Assumptions C43_suffix.

(** examples: a small database *)
Definition fr := mk_lang (lit "fra") (Some (lit "French")) (Some (lit "fr")) (lit "fra").
Definition ptbr := mk_lang (lit "por-BR") (Some (lit "Portuguese")) (Some (lit "pt")) (lit "por").
Definition undl := mk_lang (lit "und") (Some (lit "Undetermined")) None (lit "und").
Definition mull := mk_lang (lit "mul") (Some (lit "Multiple languages")) None (lit "mul").
Definition db (t : str) : option lang :=
  if smem t [lit "fr"; lit "french"] then Some fr else if smem t [lit "pt-br"; lit "brazilian portuguese"] then Some ptbr
  else if str_eqb t (lit "und") then Some undl else if smem t [lit "mul"; lit "multi"] then Some mull else None.
Definition show (s : str) := map (fun m => (lm_start m, lm_end m, lm_name m, l_id (lm_lang m)))
  (find_languages db [lit "und"; lit "MUL"; lit "fr"; lit "pt"] [lit "v"] s false [lit "st"; lit "vost"; lit "sub"] [lit "subforced"; lit "sub"] [lit "true"; lit "v"] [lit "dub"]).
Example ex_lang1 : show (lit "a.FRENCH.pt-BR.x") = [(2, 8, lit "language", lit "fra"); (9, 14, lit "language", lit "por-BR")].
Proof. reflexivity. Qed.
(** a prefix, a suffix (not seen in the first word), an affix alone, "multi" *)
Example ex_lang2 : show (lit "vostfr_a_frsub") = [(0, 6, lit "subtitle_language", lit "fra"); (9, 14, lit "subtitle_language", lit "fra")].
Proof. reflexivity. Qed.
Example ex_lang3 : show (lit "frsub") = [].
Proof. reflexivity. Qed.
(** "multi" is dropped for the subtitles, of which there is only an undetermined language *)
Example ex_lang4 : show (lit "a_sub_multi") = [(6, 11, lit "language", lit "mul"); (2, 5, lit "subtitle_language", lit "und")].
Proof. reflexivity. Qed.
Example ex_lang5 : show (lit "a_sub__x_v__") = [(2, 5, lit "subtitle_language", lit "und"); (2, 5, lit "subtitle_language", lit "und")].
Proof. reflexivity. Qed.
Example ex_prefix : In (mk_lm 0 6 (lit "subtitle_language") fr (lit "fr"))
  (find_languages db [lit "fr"] [] (lit "vostfr_a") false [lit "vost"] [] [] []).
Proof.
  apply C43_prefix with (part := lit "vost"); try reflexivity; try discriminate.
  - destruct (iter_words_spec (lit "vostfr_a")) as (_ & _ & Hi). apply Hi. exists (mk_word 0 6 (lit "vostfr")). split; [left; reflexivity|split; reflexivity].
  - intros b' (m & c & W & _ & Hc & J).
    assert (m = 6).
    { eapply is_word_end; [exact W|]. destruct (iter_words_spec (lit "vostfr_a")) as (_ & _ & Hi). apply Hi. exists (mk_word 0 6 (lit "vostfr")). split; [left; reflexivity|split; reflexivity]. }
    subst m. injection Hc as <-. destruct J as [J|[J|[J _]]]; discriminate J.
  - left. split; [reflexivity|]. split; [reflexivity|left; reflexivity].
  - split; [reflexivity|]. exists (lit "fr"). split; [left; reflexivity|]. right; left. exists (lit "fr"). split; reflexivity.
  - intros n p [(-> & _ & [<-|[]])|(_ & [])] _. split; reflexivity.
Qed.
