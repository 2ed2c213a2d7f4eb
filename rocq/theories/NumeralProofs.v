(** Numerals: specification and proofs *)
From Coq Require Import ZifyBool ZifyNat ZifyN.
From Verif Require Import Py PyFacts TextFacts Numeral.
Ltac Zify.zify_post_hook ::= Z.div_mod_to_equations.

(** * Specification *)
(** one decimal digit in Roman notation *)
Definition roman_digit (one five ten : str) (d : nat) : str :=
  match d with
  | 0 => [] | 1 => one | 2 => one ++ one | 3 => one ++ one ++ one | 4 => one ++ five
  | 5 => five | 6 => five ++ one | 7 => five ++ one ++ one | 8 => five ++ one ++ one ++ one
  | _ => one ++ ten
  end.
Definition roman_digits (a b c d : nat) : str :=
  List.concat (repeat (lit "M") a) ++ roman_digit (lit "C") (lit "D") (lit "M") b
  ++ roman_digit (lit "X") (lit "L") (lit "C") c ++ roman_digit (lit "I") (lit "V") (lit "X") d.
(** the usual Roman numeral of [n] *)
Definition roman (n : Z) : str :=
  roman_digits (Z.to_nat (n / 1000)) (Z.to_nat (n / 100 mod 10)) (Z.to_nat (n / 10 mod 10)) (Z.to_nat (n mod 10)).
(** value of a decimal writing *)
Fixpoint decimal (ds : str) : Z :=
  match ds with
  | [] => 0
  | c :: r => ((Z.of_N c - 48) * 10 ^ Z.of_nat (List.length r) + decimal r)%Z
  end.
(** the blank-separated words of a text *)
Inductive blank_words : str -> list str -> Prop :=
| bw_nil s : Forall (fun c => is_space c = true) s -> blank_words s []
| bw_cons b w r ws : Forall (fun c => is_space c = true) b -> Forall (fun c => is_space c = false) w -> w <> [] ->
    match r with [] => True | c :: _ => is_space c = true end -> blank_words r ws -> blank_words (b ++ w ++ r) (w :: ws).
(** [w] is the English or French word for [n] *)
Definition number_word (w : str) (n : Z) : Prop :=
  exists l k, In l [english_words; french_words; french_alt_words] /\ nth_error l k = Some (lower w) /\ n = Z.of_nat k.

(** * Roman numerals *)
Definition combos : list (nat * nat * nat * nat) :=
  flat_map (fun a => flat_map (fun b => flat_map (fun c => map (fun d => (a, b, c, d)) (seq 0 10)) (seq 0 10)) (seq 0 10)) (seq 0 5).
Definition num (x : nat * nat * nat * nat) : Z :=
  let '(a, b, c, d) := x in (1000 * Z.of_nat a + 100 * Z.of_nat b + 10 * Z.of_nat c + Z.of_nat d)%Z.
Definition rom (x : nat * nat * nat * nat) : str := let '(a, b, c, d) := x in roman_digits a b c d.
Definition res_eqb (x : res Z) (n : Z) : bool := match x with Ok m => Z.eqb m n | Err _ => false end.
Lemma combos_ok : forallb (fun x => (num x =? 0)%Z || (res_eqb (parse_roman (rom x)) (num x) && res_eqb (parse_roman (rom x ++ [10%N])) (num x))) combos = true.
Proof. vm_compute; reflexivity. Qed.
Lemma combos_In a b c d : a <= 4 -> b <= 9 -> c <= 9 -> d <= 9 -> In (a, b, c, d) combos.
Proof.
  intros. unfold combos. apply in_flat_map. exists a. split; [apply in_seq; lia|].
  apply in_flat_map. exists b. split; [apply in_seq; lia|]. apply in_flat_map. exists c. split; [apply in_seq; lia|].
  apply in_map_iff. exists d. split; [reflexivity|apply in_seq; lia].
Qed.
Lemma combos_In_inv x : In x combos -> let '(a, b, c, d) := x in a <= 4 /\ b <= 9 /\ c <= 9 /\ d <= 9.
Proof.
  unfold combos. intros H. apply in_flat_map in H as (a & Ha & H). apply in_flat_map in H as (b & Hb & H).
  apply in_flat_map in H as (c & Hc & H). apply in_map_iff in H as (d & <- & Hd).
  apply in_seq in Ha, Hb, Hc, Hd. lia.
Qed.
Lemma parse_rom x : In x combos -> num x <> 0%Z -> parse_roman (rom x) = Ok (num x) /\ parse_roman (rom x ++ [10%N]) = Ok (num x).
Proof.
  intros Hx Hn. pose proof combos_ok as H. rewrite forallb_forall in H. specialize (H x Hx).
  apply Bool.orb_true_iff in H as [H|H]; [apply Z.eqb_eq in H; congruence|]. apply Bool.andb_true_iff in H as [H1 H2].
  unfold res_eqb in *. destruct (parse_roman (rom x)); [|discriminate]. destruct (parse_roman (rom x ++ [10%N])); [|discriminate].
  apply Z.eqb_eq in H1, H2. subst; auto.
Qed.
Lemma roman_rom n : (1 <= n <= 4999)%Z -> exists x, In x combos /\ num x = n /\ rom x = roman n.
Proof.
  intros H. exists (Z.to_nat (n / 1000), Z.to_nat (n / 100 mod 10), Z.to_nat (n / 10 mod 10), Z.to_nat (n mod 10)).
  split; [apply combos_In; lia|]. split; [|reflexivity]. unfold num. lia.
Qed.
Lemma rom_roman x : In x combos -> rom x = roman (num x) /\ (0 <= num x <= 4999)%Z.
Proof.
  intros H. apply combos_In_inv in H. destruct x as [[[a b] c] d]. destruct H as (Ha & Hb & Hc & Hd). unfold num, rom, roman. split; [|lia].
  f_equal; lia.
Qed.
Lemma parse_roman_roman n : (1 <= n <= 4999)%Z -> parse_roman (roman n) = Ok n.
Proof. intros H. destruct (roman_rom n H) as (x & Hx & <- & <-). apply parse_rom; [exact Hx|lia]. Qed.

Lemma match_groups_spec gs : forall s, match_groups gs s = true ->
  exists parts nl, Forall2 (fun a g => In a g) parts gs /\ s = List.concat parts ++ nl /\ (nl = [] \/ nl = [10%N]).
Proof.
  induction gs as [|g gs IH]; intros s H; cbn [match_groups] in H.
  - destruct s as [|c [|]]; [exists [], []; simpl; auto| |discriminate].
    apply N.eqb_eq in H as ->. exists [], [10%N]; simpl; auto.
  - apply existsb_exists in H as (a & Ha & H). destruct (startswith a s) eqn:H1; [|discriminate]. rename H into H2.
    apply startswith_app in H1 as [r ->]. rewrite skipn_app, skipn_all, Nat.sub_diag in H2. simpl in H2.
    destruct (IH r H2) as (parts & nl & Hp & -> & Hn). exists (a :: parts), nl. simpl. rewrite app_assoc. auto.
Qed.
Lemma In_group_digit : forall k a, In a (nth k roman_groups []) ->
  match k with
  | 0 => exists n, n <= 4 /\ a = List.concat (repeat (lit "M") n)
  | 1 => exists n, n <= 9 /\ a = roman_digit (lit "C") (lit "D") (lit "M") n
  | 2 => exists n, n <= 9 /\ a = roman_digit (lit "X") (lit "L") (lit "C") n
  | 3 => exists n, n <= 9 /\ a = roman_digit (lit "I") (lit "V") (lit "X") n
  | _ => True
  end.
Proof.
  intros k a H. destruct k as [|[|[|[|k]]]]; [| | | |exact I]; simpl in H.
  - destruct H as [<-|[<-|[<-|[<-|[<-|[]]]]]]; [exists 4|exists 3|exists 2|exists 1|exists 0]; (split; [lia|reflexivity]).
  - destruct H as [<-|[<-|[<-|[<-|[<-|[<-|[<-|[<-|[<-|[<-|[]]]]]]]]]]];
    [exists 9|exists 4|exists 8|exists 7|exists 6|exists 5|exists 3|exists 2|exists 1|exists 0]; (split; [lia|reflexivity]).
  - destruct H as [<-|[<-|[<-|[<-|[<-|[<-|[<-|[<-|[<-|[<-|[]]]]]]]]]]];
    [exists 9|exists 4|exists 8|exists 7|exists 6|exists 5|exists 3|exists 2|exists 1|exists 0]; (split; [lia|reflexivity]).
  - destruct H as [<-|[<-|[<-|[<-|[<-|[<-|[<-|[<-|[<-|[<-|[]]]]]]]]]]];
    [exists 9|exists 4|exists 8|exists 7|exists 6|exists 5|exists 3|exists 2|exists 1|exists 0]; (split; [lia|reflexivity]).
Qed.
Lemma parse_roman_inv s n : parse_roman s = Ok n -> (1 <= n <= 4999)%Z /\ (s = roman n \/ s = roman n ++ [10%N]).
Proof.
  intros H. unfold parse_roman in H. destruct (roman_search s) eqn:Es; [|discriminate].
  destruct s as [|c0 s0] eqn:Hs; [discriminate|]. unfold roman_search in Es. apply Bool.andb_true_iff in Es as [Hc Hm].
  rewrite <- Hs in *. assert (Hc0 : In c0 (lit "MCDLXVI")) by (apply cmem_In; exact Hc).
  destruct (match_groups_spec _ _ Hm) as (parts & nl & Hp & E & Hn).
  unfold roman_groups in Hp. inversion Hp as [|p0 g0 ps0 gs0 H0 Hp0]; subst. inversion Hp0 as [|p1 g1 ps1 gs1 H1 Hp1]; subst.
  inversion Hp1 as [|p2 g2 ps2 gs2 H2 Hp2]; subst. inversion Hp2 as [|p3 g3 ps3 gs3 H3 Hp3]; subst. inversion Hp3; subst.
  destruct (In_group_digit 0 _ H0) as (a & Ha & ->). destruct (In_group_digit 1 _ H1) as (b & Hb & ->).
  destruct (In_group_digit 2 _ H2) as (c & Hc' & ->). destruct (In_group_digit 3 _ H3) as (d & Hd & ->).
  set (x := (a, b, c, d)). assert (Hx : In x combos) by (apply combos_In; assumption).
  assert (E' : c0 :: s0 = rom x ++ nl) by (rewrite E; unfold x, rom, roman_digits; simpl List.concat; rewrite app_nil_r, <- !app_assoc; reflexivity).
  assert (Hnz : num x <> 0%Z).
  { unfold num, x. intros Hz. assert (a = 0 /\ b = 0 /\ c = 0 /\ d = 0) as (-> & -> & -> & ->) by lia.
    simpl in E'. destruct Hn as [->| ->]; [discriminate|]. injection E' as -> _. vm_compute in Hc0. repeat destruct Hc0 as [Hc0|Hc0]; try discriminate; exact Hc0. }
  clear E Hp Hp0 Hp1 Hp2 Hp3 H0 H1 H2 H3. clearbody x.
  destruct (parse_rom x Hx Hnz) as [P1 P2]. destruct (rom_roman x Hx) as [R1 R2].
  assert (Hres : Ok n = Ok (num x)).
  { destruct Hn as [->| ->].
    - rewrite app_nil_r in E'. rewrite <- P1, <- E', <- H. unfold parse_roman. unfold roman_search. rewrite Hc, Hm. reflexivity.
    - rewrite <- P2, <- E', <- H. unfold parse_roman. unfold roman_search. rewrite Hc, Hm. reflexivity. }
  injection Hres as ->. split; [clear - R2 Hnz; lia|]. rewrite <- R1, E'. destruct Hn as [->| ->]; [left; apply app_nil_r|right; reflexivity].
Qed.

(** * Words *)
Lemma index_of_spec w l : match index_of w l with Some n => nth_error l n = Some w | None => ~ In w l end.
Proof.
  induction l as [|x l IH]; simpl; [tauto|]. destruct (str_eqb_spec x w) as [->|Hn]; [reflexivity|].
  destruct (index_of w l); simpl; [exact IH|]. intros [H|H]; [exact (Hn H)|exact (IH H)].
Qed.
Definition word_lists := [english_words; french_words; french_alt_words].
(** a word has the same number in every list where it occurs, and occurs once *)
Lemma lists_consistent : forallb (fun l1 => forallb (fun i => forallb (fun l2 => forallb (fun j =>
   negb (str_eqb (nth i l1 []) (nth j l2 [])) || Nat.eqb i j) (seq 0 21)) word_lists) (seq 0 21)) word_lists = true.
Proof. vm_compute; reflexivity. Qed.
Lemma lists_length l : In l word_lists -> List.length l = 21.
Proof. intros [<-|[<-|[<-|[]]]]; reflexivity. Qed.
Lemma number_index l1 l2 i j w : In l1 word_lists -> In l2 word_lists -> nth_error l1 i = Some w -> nth_error l2 j = Some w -> i = j.
Proof.
  intros H1 H2 Hi Hj. pose proof lists_consistent as H. rewrite forallb_forall in H. specialize (H l1 H1).
  assert (Li : i < 21) by (rewrite <- (lists_length l1 H1); apply nth_error_Some; congruence).
  assert (Lj : j < 21) by (rewrite <- (lists_length l2 H2); apply nth_error_Some; congruence).
  rewrite forallb_forall in H. specialize (H i ltac:(apply in_seq; lia)). rewrite forallb_forall in H. specialize (H l2 H2).
  rewrite forallb_forall in H. specialize (H j ltac:(apply in_seq; lia)).
  apply nth_error_nth with (d := []) in Hi, Hj. rewrite Hi, Hj, str_eqb_refl in H. simpl in H. apply Nat.eqb_eq; exact H.
Qed.
Lemma parse_word_iff w n : parse_word w = Ok n <-> number_word w n.
Proof.
  unfold parse_word, number_word. fold word_lists.
  assert (G : forall ls, (forall l, In l ls -> In l word_lists) -> match parse_word_in ls (lower w) with
     | Ok n => exists l k, In l ls /\ nth_error l k = Some (lower w) /\ n = Z.of_nat k
     | Err e => forall l, In l ls -> ~ In (lower w) l end).
  { induction ls as [|l ls IH]; intros Hin; cbn [parse_word_in]; [intros l []|].
    pose proof (index_of_spec (lower w) l) as H. destruct (index_of (lower w) l) as [k|].
    - exists l, k. simpl; auto.
    - specialize (IH (fun l' Hl => Hin l' (or_intror Hl))). destruct (parse_word_in ls (lower w)).
      + destruct IH as (l' & k & Hl & Hk). exists l', k. simpl; tauto.
      + intros l' [<-|Hl]; [exact H|apply IH; exact Hl]. }
  specialize (G word_lists (fun l H => H)). split.
  - intros E. rewrite E in G. exact G.
  - intros (l & k & Hl & Hk & ->). destruct (parse_word_in word_lists (lower w)) as [m|e].
    + destruct G as (l' & k' & Hl' & Hk' & ->). rewrite (number_index l' l k' k (lower w) Hl' Hl Hk' Hk). reflexivity.
    + exfalso. apply (G l Hl). eapply nth_error_In; exact Hk.
Qed.

(** * split *)
Lemma split_from_spec s : forall cur, Forall (fun c => is_space c = false) cur ->
  match cur with
  | [] => blank_words s (split_ws_from s [])
  | _ => exists w r ws, s = w ++ r /\ Forall (fun c => is_space c = false) w /\ match r with [] => True | c :: _ => is_space c = true end /\
         blank_words r ws /\ split_ws_from s cur = (rev cur ++ w) :: ws
  end.
Proof.
  induction s as [|c s IH]; intros cur Hcur; cbn [split_ws_from].
  - destruct cur as [|d cur]; [apply bw_nil; constructor|]. exists [], [], []. split; [reflexivity|]. split; [constructor|]. split; [exact I|]. split; [apply bw_nil, Forall_nil|cbn [rev]; rewrite app_nil_r; reflexivity].
  - destruct (is_space c) eqn:Ec.
    + specialize (IH [] (Forall_nil _)). cbn iota in IH. 
      assert (Hb : blank_words (c :: s) (split_ws_from s [])).
      { destruct IH as [s' Hs|b w r ws Hb Hw Hne Hr Hrw]; [apply bw_nil; constructor; assumption|].
        apply (bw_cons (c :: b) w r ws); auto. }
      destruct cur as [|d cur]; [exact Hb|]. exists [], (c :: s), (split_ws_from s []). rewrite app_nil_r. simpl. auto.
    + specialize (IH (c :: cur) (Forall_cons c Ec Hcur)). cbn iota in IH. destruct IH as (w & r & ws & -> & Hw & Hr & Hb & E).
      destruct cur as [|d cur].
      * rewrite E. cbn [rev app]. apply (bw_cons [] (c :: w) r ws); auto; discriminate.
      * exists (c :: w), r, ws. split; [reflexivity|]. split; [constructor; assumption|]. split; [exact Hr|]. split; [exact Hb|].
        rewrite E. cbn [rev]. rewrite <- !app_assoc. reflexivity.
Qed.
Lemma split_ws_spec s : blank_words s (split_ws s).
Proof. exact (split_from_spec s [] (Forall_nil _)). Qed.
Lemma blanks_app b1 w1 r1 b2 w2 r2 : b1 ++ w1 ++ r1 = b2 ++ w2 ++ r2 ->
  Forall (fun c => is_space c = true) b1 -> Forall (fun c => is_space c = true) b2 ->
  Forall (fun c => is_space c = false) w1 -> Forall (fun c => is_space c = false) w2 -> w1 <> [] -> w2 <> [] ->
  match r1 with [] => True | c :: _ => is_space c = true end -> match r2 with [] => True | c :: _ => is_space c = true end ->
  w1 = w2 /\ r1 = r2.
Proof.
  intros E H1 H2 Hw1 Hw2 N1 N2 R1 R2. revert b2 H2 E. induction H1 as [|c b1 Hc Hb IH]; intros b2 H2 E.
  - destruct H2 as [|d b2 Hd Hb2].
    + simpl in E. clear N1 N2. revert w2 Hw2 E. induction Hw1 as [|c w1 Hc Hw IH]; intros w2 Hw2 E.
      * destruct Hw2 as [|d w2 Hd Hw2]; [auto|]. simpl in E. subst r1. congruence.
      * destruct Hw2 as [|d w2 Hd Hw2]; [simpl in E; subst r2; congruence|]. injection E as -> E. destruct (IH w2 Hw2 E) as [-> ->]. auto.
    + destruct w1; [congruence|]. injection E as -> E. inversion Hw1; congruence.
  - destruct H2 as [|d b2 Hd Hb2].
    + destruct w2; [congruence|]. injection E as -> E. inversion Hw2; congruence.
    + injection E as -> E. exact (IH b2 Hb2 E).
Qed.
Lemma blank_words_unique s ws1 ws2 : blank_words s ws1 -> blank_words s ws2 -> ws1 = ws2.
Proof.
  intros H; revert ws2; induction H as [s Hs|b w r ws Hb Hw Hne Hr Hrw IH]; intros ws2 H2.
  - inversion H2 as [|b w r ws Hb Hw Hne Hr Hrw]; subst; [reflexivity|]. exfalso.
    apply Forall_app in Hs as [_ Hs]. apply Forall_app in Hs as [Hs _]. destruct w; [congruence|]. inversion Hs; inversion Hw; congruence.
  - inversion H2 as [s' Hs E|b' w' r' ws' Hb' Hw' Hne' Hr' Hrw' E]; subst.
    + exfalso. apply Forall_app in Hs as [_ Hs]. apply Forall_app in Hs as [Hs _]. destruct w; [congruence|]. inversion Hs; inversion Hw; congruence.
    + destruct (blanks_app _ _ _ _ _ _ E Hb' Hb Hw' Hw Hne' Hne Hr' Hr) as [-> ->]. f_equal. apply IH; exact Hrw'.
Qed.
Lemma split_single w nl : Forall (fun c => is_space c = false) w -> w <> [] -> Forall (fun c => is_space c = true) nl -> split_ws (w ++ nl) = [w].
Proof.
  intros Hw Hne Hn. eapply blank_words_unique; [apply split_ws_spec|]. apply (bw_cons [] w nl []); auto.
  - destruct Hn; auto.
  - constructor; exact Hn.
Qed.

(** * digits *)
Lemma fold_dec ds : forall acc, fold_left (fun n c => (10 * n + (Z.of_N c - 48))%Z) ds acc = (acc * 10 ^ Z.of_nat (List.length ds) + decimal ds)%Z.
Proof.
  induction ds as [|c ds IH]; intros acc; cbn [fold_left decimal List.length]; [simpl; lia|].
  rewrite IH, Nat2Z.inj_succ, Z.pow_succ_r by lia. lia.
Qed.
Lemma dec_decimal ds : dec ds = decimal ds.
Proof. unfold dec. rewrite fold_dec. lia. Qed.
Lemma take_drop p s : s = take_while p s ++ drop_while p s.
Proof. induction s as [|c s IH]; simpl; [reflexivity|]. destruct (p c); simpl; [f_equal; exact IH|reflexivity]. Qed.
Lemma take_while_all p s : Forall (fun c => p c = true) (take_while p s).
Proof. induction s as [|c s IH]; simpl; [constructor|]. destruct (p c) eqn:E; constructor; assumption. Qed.
Lemma drop_while_hd p s : match drop_while p s with [] => True | c :: _ => p c = false end.
Proof. induction s as [|c s IH]; simpl; [exact I|]. destruct (p c) eqn:E; assumption. Qed.
Lemma clean_match_spec s : match clean_match s with
  | Some ds => exists p q, s = p ++ ds ++ q /\ Forall (fun c => is_digit c = false) p /\ Forall (fun c => is_digit c = true) ds /\ ds <> [] /\
                 match q with [] => True | c :: _ => is_digit c = false end
  | None => Forall (fun c => is_digit c = false) s
  end.
Proof.
  unfold clean_match. set (nd := fun c => negb (is_digit c)). pose proof (take_drop nd s) as E. pose proof (take_while_all nd s) as Hp.
  pose proof (drop_while_hd nd s) as Hh. set (t := drop_while nd s) in *. pose proof (take_drop is_digit t) as E2. pose proof (take_while_all is_digit t) as Hd.
  pose proof (drop_while_hd is_digit t) as Hq.
  assert (Hp' : Forall (fun c => is_digit c = false) (take_while nd s)) by (eapply Forall_impl; [|exact Hp]; intros c; unfold nd; destruct (is_digit c); simpl; congruence).
  destruct (take_while is_digit t) as [|d ds] eqn:Et.
  - destruct t as [|c t]; [rewrite E, app_nil_r; exact Hp'|]. simpl in Et. unfold nd in Hh. destruct (is_digit c); simpl in *; discriminate.
  - exists (take_while nd s), (drop_while is_digit t). rewrite <- E2. split; [exact E|]. split; [exact Hp'|]. split; [exact Hd|]. split; [discriminate|exact Hq].
Qed.
Lemma int_body_digit s : forall acc n, int_body s acc false = Ok n -> exists c, In c s /\ is_digit c = true.
Proof.
  destruct s as [|c s]; intros acc n H; cbn [int_body] in H; [discriminate|].
  destruct (is_digit c) eqn:E; [exists c; simpl; auto|]. rewrite Bool.andb_false_r in H. discriminate.
Qed.
Lemma strip_In p s c : In c (strip p s) -> In c s.
Proof.
  assert (L : forall s, In c (lstrip p s) -> In c s).
  { induction s0 as [|x s0 IH]; simpl; [tauto|]. destruct (p x); simpl; tauto. }
  unfold strip, rstrip. intros H. apply in_rev in H. apply L in H. apply in_rev in H. apply L; exact H.
Qed.
Lemma py_int_no_digit s : Forall (fun c => is_digit c = false) s -> exists e, py_int s = Err e.
Proof.
  intros H. destruct (py_int s) as [n|e] eqn:E; [|eauto]. exfalso. unfold py_int in E.
  assert (G : forall r acc n, (forall c, In c r -> In c s) -> int_body r acc false = Ok n -> False).
  { intros r acc m Hr Hb. apply int_body_digit in Hb as (c & Hc & Hd). rewrite Forall_forall in H. rewrite H in Hd by auto. discriminate. }
  destruct (strip is_space s) as [|c r] eqn:Es; [discriminate|].
  assert (Hin : forall d, In d (c :: r) -> In d s) by (intros d Hd; rewrite <- Es in Hd; eapply strip_In; exact Hd).
  destruct (N.eqb c 45).
  - destruct (int_body r 0 false) eqn:Eb; [|discriminate]. eapply G; [|exact Eb]. intros d Hd; apply Hin; right; exact Hd.
  - destruct (N.eqb c 43); [eapply G; [|exact E]; intros d Hd; apply Hin; right; exact Hd|]. eapply G; [exact Hin|exact E].
Qed.

(** * parse_numeral *)
Lemma first_ok_spec f l : match first_ok f l with
  | Some n => exists a w b, l = a ++ w :: b /\ f w = Ok n /\ Forall (fun v => forall m, f v <> Ok m) a
  | None => Forall (fun v => forall m, f v <> Ok m) l
  end.
Proof.
  induction l as [|w l IH]; cbn [first_ok]; [constructor|]. destruct (f w) as [n|e] eqn:E.
  - exists [], w, l. repeat split; [exact E|constructor].
  - assert (Hw : forall m, f w <> Ok m) by (intros m; congruence). destruct (first_ok f l) as [n|].
    + destruct IH as (a & v & b & -> & Hv & Ha). exists (w :: a), v, b. repeat split; [exact Hv|constructor; assumption].
    + constructor; assumption.
Qed.
Lemma upper_roman n : (1 <= n <= 4999)%Z -> upper (roman n) = roman n /\ Forall (fun c => is_space c = false) (roman n) /\ roman n <> [].
Proof.
  assert (G : forallb (fun x => str_eqb (upper (rom x)) (rom x) && forallb (fun c => negb (is_space c)) (rom x) && ((num x =? 0)%Z || negb (str_eqb (rom x) []))) combos = true)
    by (vm_compute; reflexivity).
  intros H. destruct (roman_rom n H) as (x & Hx & <- & <-). rewrite forallb_forall in G. specialize (G x Hx).
  apply Bool.andb_true_iff in G as [G G3]. apply Bool.andb_true_iff in G as [G1 G2]. split; [apply str_eqb_eq; exact G1|]. split.
  - apply Forall_forall. intros c Hc. rewrite forallb_forall in G2. specialize (G2 c Hc). destruct (is_space c); [discriminate|reflexivity].
  - apply Bool.orb_true_iff in G3 as [G3|G3]; [apply Z.eqb_eq in G3; lia|]. intros E. rewrite E in G3. discriminate.
Qed.
Lemma lower_space s : Forall (fun c => is_space c = false) (lower s) -> Forall (fun c => is_space c = false) s.
Proof.
  unfold lower. rewrite Forall_map. apply Forall_impl. intros c. unfold to_lower. destruct (is_upper c) eqn:E; [|auto]. unfold is_space, is_upper in *. lia.
Qed.
Lemma words_no_blank l k w : In l word_lists -> nth_error l k = Some w -> Forall (fun c => is_space c = false) w /\ w <> [].
Proof.
  assert (G : forallb (fun l => forallb (fun w => forallb (fun c => negb (is_space c)) w && negb (str_eqb w [])) l) word_lists = true) by (vm_compute; reflexivity).
  intros Hl Hk. apply nth_error_In in Hk. rewrite forallb_forall in G. specialize (G l Hl). rewrite forallb_forall in G. specialize (G w Hk).
  apply Bool.andb_true_iff in G as [G1 G2]. split.
  - apply Forall_forall. intros c Hc. rewrite forallb_forall in G1. specialize (G1 c Hc). destruct (is_space c); [discriminate|reflexivity].
  - intros ->. discriminate.
Qed.

Lemma parse_digits s : (exists c, In c s /\ is_digit c = true) ->
  exists p ds q, s = p ++ ds ++ q /\ Forall (fun c => is_digit c = false) p /\ Forall (fun c => is_digit c = true) ds /\ ds <> [] /\
    match q with [] => True | c :: _ => is_digit c = false end /\ parse_numeral s = Ok (decimal ds).
Proof.
  intros (c & Hc & Hd). unfold parse_numeral, parse_numeral_with, parse_int_part. pose proof (clean_match_spec s) as H.
  destruct (clean_match s) as [ds|].
  - destruct H as (p & q & H). exists p, ds, q. rewrite dec_decimal. destruct H as (H1 & H2 & H3 & H4 & H5). auto 10.
  - exfalso. rewrite Forall_forall in H. rewrite H in Hd by exact Hc. discriminate.
Qed.

Lemma parse_no_digits s ws : Forall (fun c => is_digit c = false) s -> blank_words s ws ->
  (exists a w b n, ws = a ++ w :: b /\ (1 <= n <= 4999)%Z /\ upper w = roman n /\
     Forall (fun v => forall m, (1 <= m <= 4999)%Z -> upper v <> roman m) a /\ parse_numeral s = Ok n) \/
  (Forall (fun v => forall m, (1 <= m <= 4999)%Z -> upper v <> roman m) ws /\
   exists a w b n, ws = a ++ w :: b /\ number_word w n /\ Forall (fun v => forall m, ~ number_word v m) a /\ parse_numeral s = Ok n) \/
  (Forall (fun v => forall m, (1 <= m <= 4999)%Z -> upper v <> roman m) ws /\
   Forall (fun v => forall m, ~ number_word v m) ws /\ parse_numeral s = Err ValueError).
Proof.
  intros Hd Hws. rewrite (blank_words_unique _ _ _ Hws (split_ws_spec s)). clear Hws.
  assert (Hnl : forall v, In v (split_ws s) -> Forall (fun c => is_space c = false) v).
  { pose proof (split_ws_spec s) as H. induction H as [|b w r ws0 Hb Hw Hne Hr Hrw IH]; [intros v []|].
    intros v [<-|Hv]; [exact Hw|]. apply IH; [|exact Hv]. apply Forall_app in Hd as [_ Hd]. apply Forall_app in Hd; tauto. }
  assert (Hrom : forall v, In v (split_ws s) -> (forall m, parse_roman (upper v) <> Ok m) -> forall m, (1 <= m <= 4999)%Z -> upper v <> roman m).
  { intros v _ H m Hm E. apply (H m). rewrite E. apply parse_roman_roman; exact Hm. }
  unfold parse_numeral, parse_numeral_with, parse_int_part.
  pose proof (clean_match_spec s) as H0. destruct (clean_match s) as [ds|].
  { exfalso. destruct H0 as (p & q & -> & _ & H1 & H2 & _). apply Forall_app in Hd as [_ Hd]. apply Forall_app in Hd as [Hd _].
    destruct ds; [congruence|]. inversion H1; inversion Hd; congruence. }
  destruct (py_int_no_digit s Hd) as [e ->]. cbn iota. unfold parse_roman_part.
  pose proof (first_ok_spec (fun w => parse_roman (upper w)) (split_ws s)) as Hr. cbn beta in Hr.
  destruct (first_ok (fun w => parse_roman (upper w)) (split_ws s)) as [n|].
  - left. destruct Hr as (a & w & b & E & Hw & Ha). exists a, w, b, n. split; [exact E|].
    apply parse_roman_inv in Hw as [Hn Hw]. split; [exact Hn|]. split.
    + destruct Hw as [Hw|Hw]; [exact Hw|]. exfalso.
      assert (Hs : Forall (fun c => is_space c = false) w) by (apply Hnl; rewrite E, in_app_iff; right; left; reflexivity).
      assert (H10 : In 10%N (upper w)) by (rewrite Hw, in_app_iff; right; left; reflexivity).
      unfold upper in H10. apply in_map_iff in H10 as (c & Hc & Hin). rewrite Forall_forall in Hs. apply Hs in Hin.
      unfold to_upper in Hc. destruct (is_lower c) eqn:El; unfold is_space, is_lower in *; lia.
    + split; [|reflexivity]. apply Forall_forall. intros v Hv. apply Hrom; [rewrite E, in_app_iff; auto|]. rewrite Forall_forall in Ha. apply Ha; exact Hv.
  - right. assert (Hall : Forall (fun v => forall m, (1 <= m <= 4999)%Z -> upper v <> roman m) (split_ws s)).
    { apply Forall_forall. intros v Hv. apply Hrom; [exact Hv|]. rewrite Forall_forall in Hr. apply Hr; exact Hv. }
    assert (Hfall : exists e, parse_roman s = Err e).
    { destruct (parse_roman s) as [n|e'] eqn:E; [|eauto]. exfalso. apply parse_roman_inv in E as [Hn E].
      destruct (upper_roman n Hn) as (U1 & U2 & U3).
      assert (Es : split_ws s = [roman n]).
      { destruct E as [->| ->]; [rewrite <- (app_nil_r (roman n)) at 1|]; apply split_single; auto. }
      rewrite Es in Hall. inversion Hall as [|? ? Hbad]; subst. exact (Hbad n Hn U1). }
    destruct Hfall as [e' ->]. unfold parse_word_part.
    pose proof (first_ok_spec parse_word (split_ws s)) as Hw.
    destruct (first_ok parse_word (split_ws s)) as [n|].
    + left. split; [exact Hall|]. destruct Hw as (a & w & b & E & Hw & Ha). exists a, w, b, n. split; [exact E|].
      split; [apply parse_word_iff; exact Hw|]. split; [|reflexivity]. eapply Forall_impl; [|exact Ha]. intros v Hv m Hm. apply parse_word_iff in Hm. exact (Hv m Hm).
    + right. split; [exact Hall|]. split; [eapply Forall_impl; [|exact Hw]; intros v Hv m Hm; apply parse_word_iff in Hm; exact (Hv m Hm)|].
      destruct (parse_word s) as [n|e2] eqn:E; [|reflexivity]. exfalso. pose proof E as E0. apply parse_word_iff in E as (l & k & Hl & Hk & ->).
      destruct (words_no_blank l k _ Hl Hk) as [B1 B2]. apply lower_space in B1.
      assert (Es : split_ws s = [s]) by (rewrite <- (app_nil_r s) at 1; apply split_single; [exact B1| |constructor]; intros ->; apply B2; reflexivity).
      rewrite Es in Hw. inversion Hw as [|? ? Hbad]; subst. exact (Hbad _ E0).
Qed.
