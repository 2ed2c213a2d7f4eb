(** C20 and C21: numerals *)
From Verif Require Import Py PyFacts Numeral NumeralProofs.

(** C20: every number from 1 to 4999 is read back from its Roman numeral. *)
Theorem C20_roman_read : forall n, (1 <= n <= 4999)%Z -> parse_roman (roman n) = Ok n.
Proof. exact parse_roman_roman. Qed.
Print Assumptions C20_roman_read.
(** C20: only canonical numerals are accepted (a final newline is tolerated, as [$] does). *)
Theorem C20_roman_canonical : forall s n, parse_roman s = Ok n ->
  (1 <= n <= 4999)%Z /\ (s = roman n \/ s = roman n ++ [10%N]).
Proof. exact parse_roman_inv. Qed.
Print Assumptions C20_roman_canonical.
Example ex_roman : roman 1994 = lit "MCMXCIV" /\ parse_roman (lit "MCMXCIV") = Ok 1994%Z.
Proof. split; reflexivity. Qed.

(** C21: with a digit in the text, the value of the first run of digits. *)
Theorem C21_digits : forall s, (exists c, In c s /\ is_digit c = true) ->
  exists p ds q, s = p ++ ds ++ q /\ Forall (fun c => is_digit c = false) p /\
    Forall (fun c => is_digit c = true) ds /\ ds <> [] /\
    match q with [] => True | c :: _ => is_digit c = false end /\ parse_numeral s = Ok (decimal ds).
Proof. exact parse_digits. Qed.
Print Assumptions C21_digits.
(** C21: otherwise the first word that is a Roman numeral; otherwise the first number word;
    otherwise ValueError. *)
Theorem C21_words : forall s ws, Forall (fun c => is_digit c = false) s -> blank_words s ws ->
  (exists a w b n, ws = a ++ w :: b /\ (1 <= n <= 4999)%Z /\ upper w = roman n /\
     Forall (fun v => forall m, (1 <= m <= 4999)%Z -> upper v <> roman m) a /\ parse_numeral s = Ok n) \/
  (Forall (fun v => forall m, (1 <= m <= 4999)%Z -> upper v <> roman m) ws /\
   exists a w b n, ws = a ++ w :: b /\ number_word w n /\ Forall (fun v => forall m, ~ number_word v m) a /\ parse_numeral s = Ok n) \/
  (Forall (fun v => forall m, (1 <= m <= 4999)%Z -> upper v <> roman m) ws /\
   Forall (fun v => forall m, ~ number_word v m) ws /\ parse_numeral s = Err ValueError).
Proof. exact parse_no_digits. Qed.
Print Assumptions C21_words.
(** every text has exactly one list of words *)
Theorem C21_words_exist : forall s, exists ws, blank_words s ws /\ forall ws', blank_words s ws' -> ws' = ws.
Proof.
  intros s; exists (split_ws s). split; [apply split_ws_spec|].
  intros ws' H. exact (blank_words_unique s _ _ H (split_ws_spec s)).
Qed.
Print Assumptions C21_words_exist.
(** C21, limit: the French word for 10 is read as the Roman numeral 509. *)
Theorem C21_french_ten_refuted : exists s,
  number_word s 10 /\ parse_numeral s = Ok 509%Z.
Proof. exists (lit "dix"). split; [|reflexivity]. exists french_words, 10. simpl; auto. Qed.
Print Assumptions C21_french_ten_refuted.
Example ex_numeral : parse_numeral (lit "part 012b3") = Ok 12%Z /\ parse_numeral (lit "part iv") = Ok 4%Z
  /\ parse_numeral (lit "part six") = Ok 6%Z /\ parse_numeral (lit "part") = Err ValueError.
Proof. repeat split. Qed.

(** C21: the number words, listed independently of the model. *)
Definition number_names : list (list str * Z) :=
  let z := [122; 233; 114; 111]%N in
  [ ([lit "zero"; z], 0); ([lit "one"; lit "un"; lit "une"], 1); ([lit "two"; lit "deux"], 2); ([lit "three"; lit "trois"], 3);
    ([lit "four"; lit "quatre"], 4); ([lit "five"; lit "cinq"], 5); ([lit "six"], 6); ([lit "seven"; lit "sept"], 7);
    ([lit "eight"; lit "huit"], 8); ([lit "nine"; lit "neuf"], 9); ([lit "ten"; lit "dix"], 10); ([lit "eleven"; lit "onze"], 11);
    ([lit "twelve"; lit "douze"], 12); ([lit "thirteen"; lit "treize"], 13); ([lit "fourteen"; lit "quatorze"], 14);
    ([lit "fifteen"; lit "quinze"], 15); ([lit "sixteen"; lit "seize"], 16); ([lit "seventeen"; lit "dix-sept"; lit "dixsept"], 17);
    ([lit "eighteen"; lit "dix-huit"; lit "dixhuit"], 18); ([lit "nineteen"; lit "dix-neuf"; lit "dixneuf"], 19); ([lit "twenty"; lit "vingt"], 20) ]%Z.
Definition pairs_of_names : list (str * Z) := flat_map (fun e => map (fun w => (w, snd e)) (fst e)) number_names.
Definition pairs_of_lists : list (str * Z) :=
  flat_map (fun l => combine l (map Z.of_nat (seq 0 (List.length l)))) [english_words; french_words; french_alt_words].
Definition pair_mem (x : str * Z) (l : list (str * Z)) : bool := existsb (fun y => str_eqb (fst x) (fst y) && (snd x =? snd y)%Z) l.
Lemma pair_mem_In x l : pair_mem x l = true <-> In x l.
Proof.
  unfold pair_mem. rewrite existsb_exists. split.
  - intros (y & Hy & E). apply andb_prop in E as [E1 E2]. apply str_eqb_eq in E1. apply Z.eqb_eq in E2. destruct x, y; cbn in *; subst; exact Hy.
  - intros H; exists x. split; [exact H|]. rewrite str_eqb_refl, Z.eqb_refl. reflexivity.
Qed.
Lemma combine_nth {A} (l : list A) : forall k0 x n, In (x, n) (combine l (map Z.of_nat (seq k0 (List.length l)))) <-> exists k, nth_error l k = Some x /\ n = Z.of_nat (k0 + k).
Proof.
  induction l as [|y l IH]; intros k0 x n; cbn [List.length seq map combine In].
  - split; [tauto|intros ([|k] & H & _); discriminate].
  - rewrite IH. split.
    + intros [E|(k & H & E)]; [injection E as <- <-; exists 0; split; [reflexivity|f_equal; lia]|exists (S k); split; [exact H|rewrite E; f_equal; lia]].
    + intros ([|k] & H & E); [left; cbn in H; injection H as <-; rewrite E; f_equal; f_equal; lia|right; exists k; split; [exact H|rewrite E; f_equal; lia]].
Qed.
Theorem C21_number_words : forall w n, number_word w n <-> exists names, In (names, n) number_names /\ In (lower w) names.
Proof.
  intros w n. assert (A : number_word w n <-> In (lower w, n) pairs_of_lists).
  { unfold number_word, pairs_of_lists. rewrite in_flat_map. split.
    - intros (l & k & Hl & Hk & ->). exists l. split; [exact Hl|]. apply (combine_nth l 0). exists k; auto.
    - intros (l & Hl & H). apply (combine_nth l 0) in H as (k & H & ->). exists l, k; auto. }
  assert (B : (exists names, In (names, n) number_names /\ In (lower w) names) <-> In (lower w, n) pairs_of_names).
  { unfold pairs_of_names. rewrite in_flat_map. split.
    - intros (ns & H & H'). exists (ns, n). split; [exact H|]. apply in_map_iff. exists (lower w); auto.
    - intros ([ns m] & H & H'). apply in_map_iff in H' as (v & E & H'). cbn in *. injection E as -> ->. exists ns; auto. }
  rewrite A, B.
  assert (C1 : forallb (fun x => pair_mem x pairs_of_names) pairs_of_lists = true) by (vm_compute; reflexivity).
  assert (C2 : forallb (fun x => pair_mem x pairs_of_lists) pairs_of_names = true) by (vm_compute; reflexivity).
  rewrite forallb_forall in C1, C2. split; intros H; apply pair_mem_In; auto.
Qed.
Print Assumptions C21_number_words.
