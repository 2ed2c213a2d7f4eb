(** What the numeral pattern takes at a position: digits, else a Roman numeral, else the first listed word. *)
From Verif Require Import Py PyFacts Text TextFacts WordsProofs Regex CrcProofs DateProofs RegexFacts RegexOuts Numeral NumeralProofs Date Rebulk Episodes IntProps Patterns PatternsProps NumeralRe.
From Coq Require Import Arith ZifyBool ZifyNat ZifyN.
Local Open Scope nat_scope.

(** how many of the first [n] characters are [x] *)
Fixpoint lead (p : N -> bool) (n : nat) (l : str) : nat :=
  match n, l with S n', x :: r => if p x then S (lead p n' r) else 0 | _, _ => 0 end.
Lemma lead_le p n l : lead p n l <= n /\ lead p n l <= List.length l.
Proof. revert l. induction n as [|n IH]; intros [|x l]; cbn [lead List.length]; try lia. destruct (p x); [|lia]. specialize (IH l). lia. Qed.
Lemma lead_all p n l : forall c, In c (firstn (lead p n l) l) -> p c = true.
Proof. revert l. induction n as [|n IH]; intros [|x l] c; cbn [lead firstn]; try (intros []; fail). destruct (p x) eqn:E; [|intros []]. cbn [firstn]. intros [<-|H]; [exact E|exact (IH l c H)]. Qed.
Lemma lead_app p n t r : (forall c, In c t -> p c = true) -> List.length t <= n -> (List.length t = n \/ match r with [] => True | x :: _ => p x = false end) -> lead p n (t ++ r) = List.length t.
Proof.
  revert n. induction t as [|x t IH]; intros n H L S; cbn [app List.length].
  - destruct r as [|x r]; destruct n; cbn [lead]; try reflexivity. destruct S as [S|S]; [cbn [List.length] in S; lia|]. rewrite S. reflexivity.
  - destruct n as [|n]; [cbn [List.length] in L; lia|]. cbn [lead]. rewrite (H x (or_introl eq_refl)). f_equal. apply IH; [intros c Hc; apply H; right; exact Hc|cbn [List.length] in L; lia|].
    destruct S as [S|S]; [left; cbn [List.length] in S; lia|right; exact S].
Qed.
Lemma lead_char (x : N) n l : firstn (lead (N.eqb x) n l) l = repeat x (lead (N.eqb x) n l).
Proof. revert l. induction n as [|n IH]; intros [|y l]; cbn [lead firstn repeat]; try reflexivity. destruct (N.eqb_spec x y) as [->|]; [|reflexivity]. cbn [firstn repeat]. f_equal. apply IH. Qed.

Section Best.
  Context (s : str).
  (** the text from [i], in lower case *)
  Definition at_ (i : nat) : str := lower (skipn i s).
  Lemma at_cons i c : nth_error s i = Some c -> at_ i = to_lower c :: at_ (S i).
  Proof. intros E. unfold at_. rewrite (skipn_nth s i c E). reflexivity. Qed.
  Lemma at_nil i : nth_error s i = None -> at_ i = [].
  Proof. intros E. apply nth_error_None in E. unfold at_. rewrite skipn_all2 by exact E. reflexivity. Qed.
  Lemma at_skip i n : skipn n (at_ i) = at_ (i + n).
  Proof. unfold at_, lower. rewrite skipn_map, skipn_skipn'. reflexivity. Qed.
  Lemma at_len i : List.length (at_ i) = List.length s - i.
  Proof. unfold at_. rewrite lower_length, skipn_length. reflexivity. Qed.
  Lemma at_slice i n : firstn n (at_ i) = lower (slice i (i + n) s).
  Proof. unfold at_, lower, slice. rewrite firstn_map. f_equal. f_equal. lia. Qed.

  Lemma best_opt p q n i c : (forall x, p x = q (to_lower x)) -> best s (ropt (RChr p) n) i c = Some (i + lead q n (at_ i), c).
  Proof.
    intros Hq. revert i c. induction n as [|n IH]; intros i c; [cbn; f_equal; f_equal; lia|].
    cbn [ropt]. rewrite best_alt, best_seq by (intros; rewrite IH; discriminate). unfold best at 1. cbn [outs].
    destruct (nth_error s i) as [x|] eqn:E.
    - rewrite (at_cons i x E). cbn [lead]. rewrite <- Hq. destruct (p x); cbn [hd_error]; [rewrite IH; f_equal; f_equal; lia|cbn; f_equal; f_equal; lia].
    - rewrite (at_nil i E). cbn. f_equal. f_equal. lia.
  Qed.
  Lemma best_lit w : forall i c, best s (rlit w) i c = if startswith w (at_ i) then Some (i + List.length w, c) else None.
  Proof.
    induction w as [|x w IH]; intros i c.
    - cbn [rlit]. unfold best. cbn [outs hd_error startswith List.length]. f_equal. f_equal. lia.
    - cbn [rlit]. destruct (nth_error s i) as [y|] eqn:E.
      + rewrite (at_cons i y E). cbn [startswith List.length]. rewrite (N.eqb_sym x). destruct (N.eqb (to_lower y) x) eqn:Ex; cbn [andb].
        * rewrite (best_seq_one s _ _ i c (S i) c); [rewrite IH; replace (S i + List.length w) with (i + S (List.length w)) by lia; reflexivity|]. cbn [outs]. rewrite E, Ex. reflexivity.
        * apply best_seq_none. unfold best. cbn [outs]. rewrite E, Ex. reflexivity.
      + rewrite (at_nil i E). cbn [startswith]. apply best_seq_none. unfold best. cbn [outs]. rewrite E. reflexivity.
  Qed.

  Lemma best_range p q n i c : (forall x, p x = q (to_lower x)) -> best s (rrange (RChr p) 0 n) i c = Some (i + lead q n (at_ i), c).
  Proof. intros H. unfold rrange. cbn [rrep]. rewrite (best_seq_one s REps _ i c i c eq_refl). rewrite Nat.sub_0_r. apply best_opt, H. Qed.
  Lemma one_of_eq (y : N) : forall x, cmem (to_lower x) [y] = N.eqb y (to_lower x).
  Proof. intros x. unfold cmem. cbn [existsb]. rewrite Bool.orb_false_r. apply N.eqb_sym. Qed.

  (** one Roman digit *)
  Definition glen (o f t : N) (l : str) : nat :=
    if startswith [o; t] l then 2 else if startswith [o; f] l then 2
    else let k := lead (N.eqb f) 1 l in k + lead (N.eqb o) 3 (skipn k l).
  Lemma best_group o f t i c : best s (group_re o f t) i c = Some (i + glen o f t (at_ i), c).
  Proof.
    unfold group_re, glen. rewrite !best_alt, !best_lit. destruct (startswith [o; t] (at_ i)); [reflexivity|]. destruct (startswith [o; f] (at_ i)); [reflexivity|].
    unfold one_of. rewrite best_seq; [|intros; rewrite (best_range _ (N.eqb o)); [discriminate|apply one_of_eq]].
    rewrite (best_opt _ (N.eqb f)) by apply one_of_eq. rewrite (best_range _ (N.eqb o)) by apply one_of_eq. rewrite at_skip. f_equal. f_equal. lia.
  Qed.
  (** a whole Roman numeral *)
  Definition roman_len (l : str) : nat :=
    let m := lead (N.eqb 109) 4 l in
    let h := glen 99 100 109 (skipn m l) in
    let x := glen 120 108 99 (skipn (m + h) l) in
    m + h + x + glen 105 118 120 (skipn (m + h + x) l).
  Lemma best_look1 p i c : best s (RLook (ratleast (RChr p) 1)) i c = match nth_error s i with Some x => if p x then Some (i, c) else None | None => None end.
  Proof.
    rewrite best_look. unfold best, ratleast. cbn [rrep outs].
    destruct (nth_error s i) as [x|]; [|reflexivity]. destruct (p x); [|reflexivity]. cbn [flat_map fst snd app].
    destruct (List.length s - S i) as [|n]; [reflexivity|].
    match goal with |- match hd_error ((?a ++ ?b) ++ ?e) with _ => _ end = _ => destruct a; reflexivity end.
  Qed.
  Lemma best_roman i c : best s roman_re i c = match nth_error s i with Some x => if cmem (to_lower x) roman_letters then Some (i + roman_len (at_ i), c) else None | None => None end.
  Proof.
    assert (T3 : forall i c, best s (RSeq (group_re 120 108 99) (group_re 105 118 120)) i c = Some (i + glen 120 108 99 (at_ i) + glen 105 118 120 (at_ (i + glen 120 108 99 (at_ i))), c)).
    { intros i' c'. rewrite best_seq by (intros; rewrite best_group; discriminate). rewrite !best_group. reflexivity. }
    assert (T2 : forall i c, best s (RSeq (group_re 99 100 109) (RSeq (group_re 120 108 99) (group_re 105 118 120))) i c =
      Some (let h := i + glen 99 100 109 (at_ i) in let x := h + glen 120 108 99 (at_ h) in x + glen 105 118 120 (at_ x), c)).
    { intros i' c'. rewrite best_seq by (intros; rewrite T3; discriminate). rewrite best_group, T3. reflexivity. }
    assert (T1 : forall i c, best s (RSeq (rrange (one_of (lit "m")) 0 4) (RSeq (group_re 99 100 109) (RSeq (group_re 120 108 99) (group_re 105 118 120)))) i c = Some (i + roman_len (at_ i), c)).
    { intros i' c'. rewrite best_seq by (intros; rewrite T2; discriminate). unfold one_of. rewrite (best_range _ (N.eqb 109)) by apply one_of_eq. rewrite T2. unfold roman_len. cbv zeta. rewrite !at_skip.
      rewrite !Nat.add_assoc. reflexivity. }
    unfold roman_re. rewrite best_seq by (intros; rewrite T1; discriminate). unfold one_of at 1. rewrite best_look1.
    destruct (nth_error s i) as [x|]; [|reflexivity]. destruct (cmem (to_lower x) roman_letters); [|reflexivity]. apply T1.
  Qed.
  Lemma best_digits i c : best s digital_re i c = match nth_error s i with Some x => if is_digit x then Some (i + lead is_digit 4 (at_ i), c) else None | None => None end.
  Proof.
    assert (D : forall x, is_digit x = is_digit (to_lower x)).
    { intros x. unfold to_lower. destruct (is_upper x) eqn:U; [|reflexivity]. unfold is_digit, is_upper in *. lia. }
    unfold digital_re, rrange. cbn [rrep]. change (4 - 1) with 3. unfold digit. rewrite best_seq by (intros; rewrite (best_opt _ is_digit) by apply D; discriminate).
    rewrite best_seq by (intros; discriminate). unfold best at 1. cbn [outs]. destruct (nth_error s i) as [x|] eqn:E; [|reflexivity]. destruct (is_digit x) eqn:Ex; [|reflexivity].
    cbn [hd_error]. unfold best at 1. cbn [outs hd_error]. rewrite (best_opt _ is_digit) by apply D. rewrite (at_cons i x E). cbn [lead]. rewrite <- D, Ex. f_equal. f_equal. lia.
  Qed.

  (** the words *)
  Lemma word_lit_plain hy w : ~ In 45%N w -> word_lit hy w = rlit w.
  Proof. induction w as [|x w IH]; intros H; [reflexivity|]. cbn [word_lit rlit]. destruct (N.eqb_spec x 45) as [->|]; [destruct H; left; reflexivity|]. rewrite IH; [reflexivity|]. intros K; apply H; right; exact K. Qed.
  Lemma best_wrong hy x w i c : x <> 45%N -> (forall y, nth_error s i = Some y -> to_lower y <> x) -> best s (word_lit hy (x :: w)) i c = None.
  Proof.
    intros Hx H. cbn [word_lit]. destruct (N.eqb_spec x 45); [contradiction|]. apply best_seq_none. unfold best. cbn [outs]. destruct (nth_error s i) as [y|]; [|reflexivity].
    destruct (N.eqb_spec (to_lower y) x) as [E|]; [destruct (H y eq_refl E)|reflexivity].
  Qed.
  (** a listed word has no hyphen, or begins as a Roman numeral does *)
  Definition wordly (w : str) : Prop := ~ In 45%N w \/ exists x r, w = x :: r /\ x <> 45%N /\ In x roman_letters.
  Lemma best_word hy w i c : wordly w -> (forall x, nth_error s i = Some x -> cmem (to_lower x) roman_letters = false) ->
    best s (word_lit hy w) i c = if startswith w (at_ i) then Some (i + List.length w, c) else None.
  Proof.
    intros [H|(x & r & -> & Hx & Rx)] N; [rewrite word_lit_plain by exact H; apply best_lit|].
    assert (N' : forall y, nth_error s i = Some y -> to_lower y <> x) by (intros y E <-; specialize (N y E); apply (proj2 (cmem_In _ _)) in Rx; congruence).
    rewrite best_wrong by assumption. destruct (nth_error s i) as [y|] eqn:E; [rewrite (at_cons i y E)|rewrite (at_nil i E); reflexivity].
    cbn [startswith]. destruct (N.eqb_spec x (to_lower y)) as [Ey|]; [destruct (N' y eq_refl (eq_sym Ey))|reflexivity].
  Qed.
  Definition pick_word (words : list str) (l : str) : option str := find (fun w => startswith w l) words.
  Lemma best_alts hy words : (forall w, In w words -> wordly w) -> words <> [] -> forall i c, (forall x, nth_error s i = Some x -> cmem (to_lower x) roman_letters = false) ->
    best s (word_alts hy false words) i c = option_map (fun w => (i + List.length w, c)) (pick_word words (at_ i)).
  Proof.
    intros H Hn i c N. induction words as [|w words IH]; [congruence|]. cbn [word_alts pick_word find]. destruct words as [|w' words].
    - rewrite best_word by (auto; apply H; left; reflexivity). cbn [find]. destruct (startswith w (at_ i)); reflexivity.
    - rewrite best_alt, best_word by (auto; apply H; left; reflexivity). destruct (startswith w (at_ i)); [reflexivity|]. apply IH; [intros v Hv; apply H; right; exact Hv|discriminate].
  Qed.
  Definition number_words_listed : list str := english_words ++ french_words ++ french_alt_words.
  Lemma listed_wordly w : In w number_words_listed -> wordly w.
  Proof.
    assert (G : forallb (fun w => negb (cmem 45 w) || match w with x :: _ => negb (N.eqb x 45) && cmem x roman_letters | [] => false end) number_words_listed = true) by (vm_compute; reflexivity).
    rewrite forallb_forall in G. intros H. specialize (G w H). apply Bool.orb_true_iff in G as [G|G].
    - left. intros K. apply (proj2 (cmem_In _ _)) in K. rewrite K in G. discriminate.
    - right. destruct w as [|x r]; [discriminate|]. apply Bool.andb_true_iff in G as [G1 G2]. exists x, r. split; [reflexivity|]. split; [|apply cmem_In, G2].
      intros ->. discriminate.
  Qed.
  Lemma best_words hy i c : (forall x, nth_error s i = Some x -> cmem (to_lower x) roman_letters = false) ->
    best s (word_re hy) i c = option_map (fun w => (i + List.length w, c)) (pick_word number_words_listed (at_ i)).
  Proof.
    intros N. rewrite <- (best_alts hy number_words_listed listed_wordly) by (try exact N; discriminate).
    unfold word_re. fold number_words_listed. change number_words_listed with (lit "zero" :: tl number_words_listed). cbn [word_alts]. change (tl number_words_listed) with (lit "one" :: tl (tl number_words_listed)). cbv iota.
    rewrite !best_alt. f_equal.
    rewrite (best_word hy (lit "zero") i c) by (try exact N; apply listed_wordly; left; reflexivity).
    destruct (nth_error s i) as [x|] eqn:E.
    - destruct (word_char x) eqn:Wx.
      + rewrite (best_seq_one s _ _ i c i c); [rewrite best_word by (try exact N; try (intros ? K; rewrite E in K; injection K as <-; apply N; reflexivity); apply listed_wordly; left; reflexivity); reflexivity|].
        pose proof (best_look1 word_char i c) as B. rewrite E, Wx in B. unfold best in B. cbn [outs] in *.
        match goal with |- match ?o with _ => _ end = _ => destruct o; [discriminate B|reflexivity] end.
      + rewrite best_seq_none by (rewrite best_look1, E, Wx; reflexivity). rewrite (at_cons i x E). change (lit "zero") with [122; 101; 114; 111]%N. cbn [startswith].
        destruct (N.eqb_spec 122 (to_lower x)) as [Ex|]; [|reflexivity]. exfalso. unfold word_char, is_alpha in Wx. unfold to_lower in Ex. destruct (is_upper x) eqn:U; unfold is_upper, is_lower in *; lia.
    - rewrite best_seq_none by (rewrite best_look1, E; reflexivity). rewrite (at_nil i E). reflexivity.
  Qed.
  (** what is taken from a text in lower case *)
  Definition numeral_pick (l : str) : option nat :=
    match l with
    | [] => None
    | x :: _ => if is_digit x then Some (lead is_digit 4 l) else if cmem x roman_letters then Some (roman_len l)
                else option_map (@List.length N) (pick_word number_words_listed l)
    end.
  Lemma best_numeral hy i c : best s (numeral_re hy) i c = option_map (fun n => (i + n, c)) (numeral_pick (at_ i)).
  Proof.
    unfold numeral_re. rewrite !best_alt, best_digits, best_roman. destruct (nth_error s i) as [x|] eqn:E.
    - rewrite (at_cons i x E). unfold numeral_pick. assert (D : is_digit (to_lower x) = is_digit x) by (unfold to_lower; destruct (is_upper x) eqn:U; [unfold is_digit, is_upper in *; lia|reflexivity]).
      rewrite D. destruct (is_digit x); [reflexivity|]. destruct (cmem (to_lower x) roman_letters) eqn:R; [reflexivity|].
      rewrite best_words by (intros y Ey; congruence). rewrite (at_cons i x E). destruct (pick_word _ _); reflexivity.
    - rewrite (at_nil i E). rewrite best_words by congruence. rewrite (at_nil i E). reflexivity.
  Qed.
End Best.

(** ** the texts it takes *)
(** the words that are taken whole: not those that begin with the letter of a Roman numeral (deux, cinq, dix, douze, vingt),
    nor those of which a word listed before is the beginning (fourteen, sixteen, seventeen, eighteen, nineteen, une) *)
Definition number_words : list (str * Z) :=
  ([122; 233; 114; 111]%N, 0%Z) ::
  map (fun p => (lit (fst p), snd p))
    [("zero", 0%Z); ("one", 1%Z); ("two", 2%Z); ("three", 3%Z); ("four", 4%Z); ("five", 5%Z); ("six", 6%Z); ("seven", 7%Z); ("eight", 8%Z); ("nine", 9%Z); ("ten", 10%Z);
     ("eleven", 11%Z); ("twelve", 12%Z); ("thirteen", 13%Z); ("fifteen", 15%Z); ("twenty", 20%Z);
     ("un", 1%Z); ("trois", 3%Z); ("quatre", 4%Z); ("sept", 7%Z); ("huit", 8%Z); ("neuf", 9%Z);
     ("onze", 11%Z); ("treize", 13%Z); ("quatorze", 14%Z); ("quinze", 15%Z); ("seize", 16%Z)]%string.
Inductive written_number : str -> Z -> Prop :=
| in_digits t : number t -> List.length t <= 4 -> written_number t (value_of t)
| in_roman t n : (1 <= n <= 4999)%Z -> upper t = roman n -> written_number t n
| in_words t n : In (lower t, n) number_words -> written_number t n.

Lemma firstn_plus {A} n m (l : list A) : firstn (n + m) l = firstn n l ++ firstn m (skipn n l).
Proof. revert l. induction n as [|n IH]; intros l; [reflexivity|]. destruct l as [|x l]; [cbn; rewrite firstn_nil; reflexivity|]. cbn [Nat.add firstn skipn app]. f_equal. apply IH. Qed.
Lemma glen_text o f t l : exists d, d <= 9 /\ firstn (glen o f t l) l = roman_digit [o] [f] [t] d.
Proof.
  unfold glen. destruct (startswith [o; t] l) eqn:E1.
  { apply startswith_app in E1 as [r ->]. exists 9. split; [lia|reflexivity]. }
  destruct (startswith [o; f] l) eqn:E2.
  { apply startswith_app in E2 as [r ->]. exists 4. split; [lia|reflexivity]. }
  cbv zeta. rewrite firstn_plus, !lead_char. pose proof (lead_le (N.eqb f) 1 l) as [L1 _]. pose proof (lead_le (N.eqb o) 3 (skipn (lead (N.eqb f) 1 l) l)) as [L2 _].
  destruct (lead (N.eqb f) 1 l) as [|[|]] eqn:K; [| |lia]; (destruct (lead (N.eqb o) 3 _) as [|[|[|[|]]]]; [| | | |lia]).
  - exists 0. split; [lia|reflexivity].
  - exists 1. split; [lia|reflexivity].
  - exists 2. split; [lia|reflexivity].
  - exists 3. split; [lia|reflexivity].
  - exists 5. split; [lia|reflexivity].
  - exists 6. split; [lia|reflexivity].
  - exists 7. split; [lia|reflexivity].
  - exists 8. split; [lia|reflexivity].
Qed.
Definition begins_not (l : str) (r : str) : Prop := match r with [] => True | x :: _ => ~ In x l end.
Lemma glen_exact o f t d r : o <> f -> o <> t -> f <> t -> d <= 9 -> begins_not [o; f; t] r -> glen o f t (roman_digit [o] [f] [t] d ++ r) = List.length (roman_digit [o] [f] [t] d).
Proof.
  intros H1 H2 H3 Hd Hr.
  assert (E1 : N.eqb o f = false) by (apply N.eqb_neq; exact H1). assert (E2 : N.eqb o t = false) by (apply N.eqb_neq; exact H2). assert (E3 : N.eqb f t = false) by (apply N.eqb_neq; exact H3).
  assert (E1' : N.eqb f o = false) by (rewrite N.eqb_sym; exact E1). assert (E2' : N.eqb t o = false) by (rewrite N.eqb_sym; exact E2). assert (E3' : N.eqb t f = false) by (rewrite N.eqb_sym; exact E3).
  assert (R : forall (P : str -> Prop), P [] -> (forall x r, N.eqb o x = false -> N.eqb f x = false -> N.eqb t x = false -> P (x :: r)) -> P r).
  { intros P P0 P1. destruct r as [|x r]; [exact P0|]. cbn [begins_not In] in Hr. apply P1; apply N.eqb_neq; tauto. }
  revert Hr. pattern r. apply R; clear R r.
  - intros _. do 10 (destruct d as [|d]; [cbn [roman_digit app]; unfold glen; repeat (progress (cbn [startswith lead skipn andb app List.length Nat.add]; rewrite ?N.eqb_refl, ?E1, ?E2, ?E3, ?E1', ?E2', ?E3')); reflexivity|]). lia.
  - intros x r X1 X2 X3 _. do 10 (destruct d as [|d]; [cbn [roman_digit app]; unfold glen; repeat (progress (cbn [startswith lead skipn andb app List.length Nat.add]; rewrite ?N.eqb_refl, ?E1, ?E2, ?E3, ?E1', ?E2', ?E3', ?X1, ?X2, ?X3)); reflexivity|]). lia.
Qed.
(** the Roman numeral in lower case *)
Definition low_digits (a b c d : nat) : str := repeat 109%N a ++ roman_digit [99]%N [100]%N [109]%N b ++ roman_digit [120]%N [108]%N [99]%N c ++ roman_digit [105]%N [118]%N [120]%N d.
Lemma low_rom a b c d : a <= 4 -> b <= 9 -> c <= 9 -> d <= 9 -> lower (roman_digits a b c d) = low_digits a b c d.
Proof.
  intros La Lb Lc Ld.
  assert (G : forallb (fun x => let '(a, b, c, d) := x in str_eqb (lower (rom x)) (low_digits a b c d)) combos = true) by (vm_compute; reflexivity).
  rewrite forallb_forall in G. specialize (G (a, b, c, d) (combos_In a b c d La Lb Lc Ld)). apply str_eqb_eq in G. exact G.
Qed.
Lemma roman_text l : exists a b c d, a <= 4 /\ b <= 9 /\ c <= 9 /\ d <= 9 /\ firstn (roman_len l) l = low_digits a b c d.
Proof.
  unfold roman_len. cbv zeta. set (m := lead (N.eqb 109) 4 l). set (h := glen 99 100 109 (skipn m l)). set (x := glen 120 108 99 (skipn (m + h) l)).
  destruct (glen_text 99 100 109 (skipn m l)) as (b & Lb & Eb). destruct (glen_text 120 108 99 (skipn (m + h) l)) as (c & Lc & Ec). destruct (glen_text 105 118 120 (skipn (m + h + x) l)) as (d & Ld & Ed).
  exists m, b, c, d. pose proof (lead_le (N.eqb 109) 4 l) as [L _]. fold m in L. repeat (split; [assumption|]).
  rewrite !firstn_plus. unfold low_digits. rewrite <- !app_assoc. f_equal; [apply lead_char|]. f_equal; [exact Eb|]. f_equal; [rewrite <- Ec; reflexivity|exact Ed].
Qed.
Lemma begins_app l u r : (forall x, In x u -> ~ In x l) -> begins_not l r -> begins_not l (u ++ r).
Proof. intros H R. destruct u as [|x u]; [exact R|]. cbn [app begins_not]. apply H. left. reflexivity. Qed.
Lemma begins_sub l l' r : (forall x, In x l -> In x l') -> begins_not l' r -> begins_not l r.
Proof. intros H. destruct r as [|x r]; [trivial|]. cbn [begins_not]. intros K C. apply K, H, C. Qed.
Lemma rdigit_head l o f t d r : ~ In o l -> ~ In f l -> begins_not l r -> begins_not l (roman_digit [o] [f] [t] d ++ r).
Proof. intros Ho Hf R. do 9 (destruct d as [|d]; [try exact R; cbn [roman_digit app begins_not]; assumption|]). cbn [roman_digit app begins_not]. exact Ho. Qed.
Lemma roman_exact a b c d r : a <= 4 -> b <= 9 -> c <= 9 -> d <= 9 -> begins_not roman_letters r -> roman_len (low_digits a b c d ++ r) = List.length (low_digits a b c d).
Proof.
  intros La Lb Lc Ld R. change roman_letters with [109; 99; 100; 108; 120; 118; 105]%N in R. unfold low_digits, roman_len. cbv zeta. rewrite <- !app_assoc.
  set (u1 := roman_digit [99]%N [100]%N [109]%N b). set (u2 := roman_digit [120]%N [108]%N [99]%N c). set (u3 := roman_digit [105]%N [118]%N [120]%N d).
  assert (R3 : begins_not [105; 118; 120]%N r) by (eapply begins_sub; [|exact R]; cbn [In]; intuition).
  assert (R2 : begins_not [120; 108; 99]%N (u3 ++ r)) by (apply rdigit_head; [cbn [In]; intuition discriminate|cbn [In]; intuition discriminate|eapply begins_sub; [|exact R]; cbn [In]; intuition]).
  assert (R1 : begins_not [99; 100; 109]%N (u2 ++ u3 ++ r)) by (apply rdigit_head; [cbn [In]; intuition discriminate|cbn [In]; intuition discriminate|apply rdigit_head; [cbn [In]; intuition discriminate|cbn [In]; intuition discriminate|eapply begins_sub; [|exact R]; cbn [In]; intuition]]).
  assert (R0 : begins_not [109]%N (u1 ++ u2 ++ u3 ++ r)) by (repeat (apply rdigit_head; [cbn [In]; intuition discriminate|cbn [In]; intuition discriminate|]); eapply begins_sub; [|exact R]; cbn [In]; intuition).
  rewrite (lead_app (N.eqb 109) 4 (repeat 109%N a)).
  2:{ intros x Hx. apply repeat_spec in Hx as ->. reflexivity. }
  2:{ rewrite repeat_length. exact La. }
  2:{ right. destruct (u1 ++ u2 ++ u3 ++ r) as [|x v]; [exact I|]. cbn [begins_not In] in R0. apply N.eqb_neq. intuition. }
  assert (SK : forall (u v : str) n, n = List.length u -> skipn n (u ++ v) = v) by (intros u v n ->; rewrite skipn_app, skipn_all, Nat.sub_diag; reflexivity).
  set (m := repeat 109%N a) in *.
  assert (S1 : skipn (List.length m) (m ++ u1 ++ u2 ++ u3 ++ r) = u1 ++ u2 ++ u3 ++ r) by (apply SK; reflexivity).
  assert (S2 : skipn (List.length m + List.length u1) (m ++ u1 ++ u2 ++ u3 ++ r) = u2 ++ u3 ++ r) by (rewrite app_assoc; apply SK; rewrite app_length; reflexivity).
  assert (S3 : skipn (List.length m + List.length u1 + List.length u2) (m ++ u1 ++ u2 ++ u3 ++ r) = u3 ++ r) by (rewrite !app_assoc, <- app_assoc; apply SK; rewrite !app_length; reflexivity).
  assert (G1 : glen 99 100 109 (u1 ++ u2 ++ u3 ++ r) = List.length u1) by (apply glen_exact; try discriminate; assumption).
  assert (G2 : glen 120 108 99 (u2 ++ u3 ++ r) = List.length u2) by (apply glen_exact; try discriminate; assumption).
  assert (G3 : glen 105 118 120 (u3 ++ r) = List.length u3) by (apply glen_exact; try discriminate; assumption).
  rewrite S1, G1, S2, G2, S3, G3, !app_length. lia.
Qed.
Lemma up_low c : to_upper (to_lower c) = to_upper c.
Proof. unfold to_upper, to_lower. destruct (is_upper c) eqn:U; [|reflexivity]. unfold is_upper, is_lower in *. destruct ((97 <=? c + 32)%N && (c + 32 <=? 122)%N) eqn:A, ((97 <=? c)%N && (c <=? 122)%N) eqn:B; lia. Qed.
Lemma low_up c : to_lower (to_upper c) = to_lower c.
Proof. unfold to_upper, to_lower. destruct (is_lower c) eqn:U; [|reflexivity]. unfold is_upper, is_lower in *. destruct ((65 <=? c - 32)%N && (c - 32 <=? 90)%N) eqn:A, ((65 <=? c)%N && (c <=? 90)%N) eqn:B; lia. Qed.
Lemma upper_lower t : upper (lower t) = upper t.
Proof. unfold upper, lower. rewrite map_map. apply map_ext, up_low. Qed.
Lemma lower_upper t : lower (upper t) = lower t.
Proof. unfold upper, lower. rewrite map_map. apply map_ext, low_up. Qed.
Lemma roman_lower t n : (1 <= n <= 4999)%Z -> upper t = roman n <-> lower t = lower (roman n).
Proof.
  intros H. split; intros E.
  - rewrite <- E, lower_upper. reflexivity.
  - rewrite <- (upper_lower t), E, upper_lower. apply upper_roman, H.
Qed.
(** the letters of a Roman numeral *)
Lemma low_letters n x : (1 <= n <= 4999)%Z -> In x (lower (roman n)) -> In x roman_letters.
Proof.
  assert (G : forallb (fun x => forallb (fun c => cmem c roman_letters) (lower (rom x))) combos = true) by (vm_compute; reflexivity).
  intros H Hx. destruct (roman_rom n H) as (q & Hq & _ & E). rewrite forallb_forall in G. specialize (G q Hq). rewrite forallb_forall in G. rewrite E in G. apply cmem_In, G, Hx.
Qed.
Lemma roman_parts n : (1 <= n <= 4999)%Z -> exists a b c d, a <= 4 /\ b <= 9 /\ c <= 9 /\ d <= 9 /\ lower (roman n) = low_digits a b c d.
Proof.
  intros H. destruct (roman_rom n H) as ([[[a b] c] d] & Hq & _ & E). pose proof (combos_In_inv _ Hq) as (La & Lb & Lc & Ld). exists a, b, c, d. repeat (split; [assumption|]).
  rewrite <- E. apply low_rom; assumption.
Qed.
Lemma parts_roman a b c d : a <= 4 -> b <= 9 -> c <= 9 -> d <= 9 -> low_digits a b c d <> [] -> exists n, (1 <= n <= 4999)%Z /\ lower (roman n) = low_digits a b c d.
Proof.
  intros La Lb Lc Ld Hn. pose proof (combos_In a b c d La Lb Lc Ld) as Hq. destruct (rom_roman _ Hq) as [E Hr]. exists (NumeralProofs.num (a, b, c, d)). split.
  - assert (NumeralProofs.num (a, b, c, d) <> 0%Z); [|lia]. intros Z. rewrite Z in E. change (roman 0) with (@nil N) in E. apply Hn. rewrite <- low_rom by assumption. cbn [rom] in E. rewrite E. reflexivity.
  - rewrite <- E. apply low_rom; assumption.
Qed.

Lemma find_split {A} (f : A -> bool) l x : find f l = Some x -> exists u v, l = u ++ x :: v /\ f x = true /\ forall y, In y u -> f y = false.
Proof.
  induction l as [|y l IH]; [discriminate|]. cbn [find]. destruct (f y) eqn:E.
  - intros H. injection H as ->. exists [], l. split; [reflexivity|]. split; [exact E|]. intros y [].
  - intros H. destruct (IH H) as (u & v & -> & F & G). exists (y :: u), v. split; [reflexivity|]. split; [exact F|]. intros z [<-|Hz]; auto.
Qed.
Lemma find_mid {A} (f : A -> bool) u x v : f x = true -> (forall y, In y u -> f y = false) -> find f (u ++ x :: v) = Some x.
Proof. intros F. induction u as [|y u IH]; intros G; cbn [app find]; [rewrite F; reflexivity|]. rewrite (G y (or_introl eq_refl)). apply IH. intros z Hz. apply G. right. exact Hz. Qed.
Lemma starts_refl w : startswith w w = true.
Proof. induction w as [|x w IH]; [reflexivity|]. cbn [startswith]. rewrite N.eqb_refl. exact IH. Qed.
Lemma starts_more w u r : startswith w u = true -> startswith w (u ++ r) = true.
Proof. intros H. apply startswith_app in H as [v ->]. apply startswith_app. exists (v ++ r). rewrite app_assoc. reflexivity. Qed.
Lemma pick_word_self words w r : pick_word words (w ++ r) = Some w -> pick_word words w = Some w.
Proof.
  unfold pick_word. intros H. apply find_split in H as (u & v & -> & F & G). apply find_mid; [apply starts_refl|]. intros y Hy. specialize (G y Hy).
  destruct (startswith y w) eqn:E; [|reflexivity]. rewrite (starts_more y w r E) in G. discriminate.
Qed.
Lemma words_table w : In w number_words_listed -> pick_word number_words_listed w = Some w -> (forall x r, w = x :: r -> ~ In x roman_letters) -> exists n, In (w, n) number_words.
Proof.
  assert (G : forallb (fun w => negb (match pick_word number_words_listed w with Some v => str_eqb v w | None => false end) || match w with x :: _ => cmem x roman_letters | [] => false end ||
    existsb (fun p => str_eqb (fst p) w) number_words) number_words_listed = true) by (vm_compute; reflexivity).
  rewrite forallb_forall in G. intros H P R. specialize (G w H). rewrite P, str_eqb_refl in G. cbn [negb orb] in G. apply Bool.orb_true_iff in G as [G|G].
  - destruct w as [|x r]; [discriminate|]. apply cmem_In in G. destruct (R x r eq_refl G).
  - apply existsb_exists in G as ([v n] & Hv & E). apply str_eqb_eq in E. cbn [fst] in E. subst v. exists n. exact Hv.
Qed.
Lemma sep_lower c : In c seps -> to_lower c = c.
Proof. intros H. vm_compute in H. repeat (destruct H as [<-|H]; [reflexivity|]). destruct H. Qed.
(** a word of the table is taken, when a separator or the end follows *)
Lemma table_words w n r : In (w, n) number_words -> match r with [] => True | x :: _ => In x seps end -> pick_word number_words_listed (w ++ r) = Some w.
Proof.
  intros H R. assert (G : forallb (fun p => forallb (fun x => match pick_word number_words_listed (fst p ++ [x]) with Some v => str_eqb v (fst p) | None => false end) seps &&
     match pick_word number_words_listed (fst p) with Some v => str_eqb v (fst p) | None => false end) number_words = true) by (vm_compute; reflexivity).
  assert (B : forallb (fun w => forallb (fun p => negb (startswith (fst p) w) || Nat.eqb (List.length w) (List.length (fst p)) || negb (cmem (nth (List.length (fst p)) w 0%N) seps)) number_words) number_words_listed = true) by (vm_compute; reflexivity).
  rewrite forallb_forall in G. specialize (G (w, n) H). cbn [fst] in G. apply Bool.andb_true_iff in G as [G1 G2].
  assert (G3 : pick_word number_words_listed w = Some w) by (destruct (pick_word number_words_listed w) as [v|]; [apply str_eqb_eq in G2; congruence|discriminate]). clear G1 G2.
  unfold pick_word in *. apply find_split in G3 as (u & v & E & F & K). rewrite E. apply find_mid; [apply starts_more; exact F|].
  intros y Hy. destruct (startswith y (w ++ r)) eqn:Y; [exfalso|reflexivity]. specialize (K y Hy). apply startswith_app in Y as [q Y].
  assert (Ly : In y number_words_listed) by (rewrite E; apply in_app_iff; left; exact Hy).
  rewrite forallb_forall in B. specialize (B y Ly). rewrite forallb_forall in B. specialize (B (w, n) H). cbn [fst] in B.
  destruct (Nat.le_gt_cases (List.length y) (List.length w)) as [L|L].
  - assert (Y' : firstn (List.length y) (w ++ r) = y) by (rewrite Y, firstn_app, firstn_all, Nat.sub_diag; cbn [firstn]; rewrite app_nil_r; reflexivity).
    rewrite firstn_app in Y'. replace (List.length y - List.length w) with 0 in Y' by lia. cbn [firstn] in Y'. rewrite app_nil_r in Y'.
    assert (startswith y w = true); [|congruence]. apply startswith_app. exists (skipn (List.length y) w). rewrite <- Y' at 1. rewrite firstn_skipn. reflexivity.
  - assert (Y' : firstn (List.length w) y = w).
    { assert (Z : firstn (List.length w) (w ++ r) = w) by (rewrite firstn_app, firstn_all, Nat.sub_diag; cbn [firstn]; rewrite app_nil_r; reflexivity).
      rewrite Y, firstn_app in Z. replace (List.length w - List.length y) with 0 in Z by lia. cbn [firstn] in Z. rewrite app_nil_r in Z. exact Z. }
    assert (St : startswith w y = true) by (apply startswith_app; exists (skipn (List.length w) y); rewrite <- Y' at 1; rewrite firstn_skipn; reflexivity).
    rewrite St in B. destruct (Nat.eqb_spec (List.length y) (List.length w)); [lia|]. cbn [negb orb] in B.
    assert (X : nth (List.length w) y 0%N = nth 0 r 0%N).
    { rewrite <- (app_nth1 y q 0%N L), <- Y, app_nth2 by lia. rewrite Nat.sub_diag. reflexivity. }
    destruct r as [|x r]; [rewrite app_nil_r in Y; subst w; rewrite app_length in L; lia|]. cbn [nth] in X. rewrite X in B. apply (proj2 (cmem_In _ _)) in R. rewrite R in B. discriminate.
Qed.

Lemma to_lower_digit x : is_digit (to_lower x) = is_digit x.
Proof. unfold to_lower. destruct (is_upper x) eqn:U; [unfold is_digit, is_upper in *; lia|reflexivity]. Qed.
Lemma lower_digits t : (forall c, In c t -> is_digit c = true) -> lower t = t.
Proof. intros H. unfold lower. rewrite <- (map_id t) at 2. apply map_ext_in. intros c Hc. specialize (H c Hc). unfold to_lower. destruct (is_upper c) eqn:U; [unfold is_digit, is_upper in *; lia|reflexivity]. Qed.
Lemma roman_letter_lower x : In x roman_letters -> is_lower x = true.
Proof. intros H. vm_compute in H. repeat (destruct H as [<-|H]; [reflexivity|]). destruct H. Qed.

Lemma some_inj {A} (x y : A) : Some x = Some y -> x = y.
Proof. congruence. Qed.
(** taken up to a separator or the end *)
Theorem pick_iff s a b : a <= b <= List.length s -> (forall c, nth_error s b = Some c -> In c seps) ->
  numeral_pick (at_ s a) = Some (b - a) <-> exists n, written_number (slice a b s) n.
Proof.
  intros L St.
  assert (C : at_ s a = lower (slice a b s) ++ at_ s b).
  { rewrite <- (firstn_skipn (b - a) (at_ s a)). rewrite at_slice, at_skip. replace (a + (b - a)) with b by lia. reflexivity. }
  assert (R : match at_ s b with [] => True | x :: _ => In x seps end).
  { destruct (nth_error s b) as [c|] eqn:E; [rewrite (at_cons s b c E); rewrite sep_lower; apply St; reflexivity|rewrite (at_nil s b E); exact I]. }
  assert (Ln : List.length (lower (slice a b s)) = b - a) by (rewrite lower_length; apply slice_len; exact L).
  set (t := slice a b s) in *. set (r := at_ s b) in *. rewrite C.
  assert (Rd : match r with [] => True | x :: _ => is_digit x = false end) by (destruct r; [exact I|apply sep_nodigit, R]).
  assert (Rr : begins_not roman_letters r).
  { destruct r as [|x r']; [exact I|]. cbn [begins_not]. intros K. apply roman_letter_lower in K. apply sep_noalpha in R. unfold is_alpha in R. rewrite K, Bool.orb_true_r in R. discriminate. }
  assert (FN : forall l' : str, firstn (b - a) (lower t ++ l') = lower t) by (intros l'; rewrite firstn_app, <- Ln, firstn_all, Nat.sub_diag; cbn [firstn]; apply app_nil_r).
  split.
  - unfold numeral_pick. destruct (lower t ++ r) as [|x l] eqn:E; [discriminate|]. rewrite <- E. destruct (is_digit x) eqn:Dx.
    + intros H. apply some_inj in H. pose proof (lead_all is_digit 4 (lower t ++ r)) as LA. pose proof (lead_le is_digit 4 (lower t ++ r)) as [LL _]. rewrite H in LA, LL. rewrite FN in LA.
      assert (N0 : 0 < b - a) by (rewrite <- H, E; cbn [lead]; rewrite Dx; lia).
      assert (D : forall c, In c t -> is_digit c = true) by (intros c Hc; rewrite <- to_lower_digit; apply LA; unfold lower; apply in_map, Hc).
      exists (value_of t). constructor; [split; [intros Z; rewrite Z in Ln; cbn in Ln; lia|intros c Hc; apply is_digit_iff, D, Hc]|rewrite <- lower_length, Ln; exact LL].
    + destruct (cmem x roman_letters) eqn:Cx.
      * intros H. apply some_inj in H. destruct (roman_text (lower t ++ r)) as (ka & kb & kc & kd & La & Lb & Lc & Ld & T). rewrite H, FN in T.
        assert (NE : low_digits ka kb kc kd <> []).
        { rewrite <- T. intros Z. rewrite Z in E. cbn [app] in E. rewrite E in Rr. cbn [begins_not] in Rr. apply cmem_In in Cx. exact (Rr Cx). }
        destruct (parts_roman ka kb kc kd La Lb Lc Ld NE) as (n & Hn & En). exists n. apply in_roman; [exact Hn|]. apply roman_lower; [exact Hn|congruence].
      * destruct (pick_word number_words_listed (lower t ++ r)) as [w|] eqn:P; [|discriminate]. cbn [option_map]. intros H. apply some_inj in H.
        pose proof P as P'. unfold pick_word in P'. apply find_some in P' as [Hw Sw]. apply startswith_app in Sw as [q Sw].
        assert (T : lower t = w) by (rewrite <- (FN r), Sw, <- H, firstn_app, firstn_all, Nat.sub_diag; cbn [firstn]; apply app_nil_r).
        assert (Hwp : pick_word number_words_listed w = Some w) by (apply (pick_word_self _ w r); rewrite <- T at 1; exact P).
        destruct (words_table w Hw Hwp) as [n Hn]; [|exists n; apply in_words; rewrite T; exact Hn].
        intros y v -> K. apply cmem_In in K. rewrite T in E. cbn [app] in E. injection E as -> _. congruence.
  - intros (n & W). inversion W as [t' Nt Lt|t' n' Hn U|t' n' Hw]; subst.
    + assert (D : forall c, In c t -> is_digit c = true) by (intros c Hc; apply is_digit_iff, (proj2 Nt), Hc). rewrite lower_digits in * by exact D.
      destruct t as [|x t0] eqn:Et; [destruct Nt; congruence|]. cbn [app numeral_pick]. rewrite (D x (or_introl eq_refl)). f_equal. change (x :: t0 ++ r) with ((x :: t0) ++ r).
      rewrite lead_app; [exact Ln|exact D|exact Lt|right; exact Rd].
    + apply roman_lower in U; [|exact Hn]. destruct (roman_parts n Hn) as (ka & kb & kc & kd & La & Lb & Lc & Ld & T). rewrite U, T in *.
      assert (Hl : forall x, In x (low_digits ka kb kc kd) -> In x roman_letters) by (intros x; rewrite <- T; apply low_letters, Hn).
      assert (NE : low_digits ka kb kc kd <> []) by (rewrite <- T; intros Z; destruct (upper_roman n Hn) as (_ & _ & NE); apply NE; destruct (roman n); [reflexivity|discriminate]).
      pose proof (roman_exact ka kb kc kd r La Lb Lc Ld Rr) as RE.
      destruct (low_digits ka kb kc kd) as [|x l] eqn:El; [congruence|]. cbn [app numeral_pick]. specialize (Hl x (or_introl eq_refl)).
      assert (Dx : is_digit x = false) by (apply roman_letter_lower in Hl; unfold is_digit, is_lower in *; lia). rewrite Dx. apply (proj2 (cmem_In _ _)) in Hl. rewrite Hl. f_equal. cbn [app] in RE. rewrite RE. exact Ln.
    + pose proof (table_words (lower t) n r Hw R) as P.
      assert (G : forallb (fun p => match fst p with x :: _ => negb (is_digit x) && negb (cmem x roman_letters) | [] => false end) number_words = true) by (vm_compute; reflexivity).
      rewrite forallb_forall in G. specialize (G _ Hw). cbn [fst] in G. destruct (lower t) as [|x l] eqn:El; [discriminate|]. apply Bool.andb_true_iff in G as [G1 G2].
      cbn [app numeral_pick]. destruct (is_digit x); [discriminate|]. destruct (cmem x roman_letters); [discriminate|]. cbn [app] in P. rewrite P. cbn [option_map]. rewrite Ln. reflexivity.
Qed.
