(** Quantities: proofs *)
From Coq Require Import ZifyBool ZifyNat ZifyN.
From Verif Require Import Py PyFacts Text TextFacts Numeral NumeralProofs Formatters FormattersProofs Quantity.

(** * printing and reading numbers *)
Lemma print_spec fuel : forall n acc, (n < 2 ^ N.of_nat fuel)%N -> 0 < fuel -> exists ds,
  print_dec fuel n acc = ds ++ acc /\ ds <> [] /\ Forall (fun c => is_digit c = true) ds /\ decimal ds = Z.of_N n.
Proof.
  induction fuel as [|f IH]; intros n acc Hn Hf; [lia|]. cbn [print_dec].
  destruct (N.ltb_spec n 10) as [H|H].
  - exists [(48 + n)%N]. split; [reflexivity|]. split; [discriminate|]. split; [constructor; [unfold is_digit; lia|constructor]|].
    cbn [decimal List.length]. change (10 ^ Z.of_nat 0)%Z with 1%Z. lia.
  - rewrite Nat2N.inj_succ, N.pow_succ_r' in Hn.
    destruct f as [|f']; [change (2 ^ N.of_nat 0)%N with 1%N in Hn; lia|].
    assert (Hd : (n / 10 < 2 ^ N.of_nat (S f'))%N) by (apply N.div_lt_upper_bound; lia).
    destruct (IH (n / 10)%N ((48 + n mod 10)%N :: acc) Hd ltac:(lia)) as (ds & E & Hne & Hds & Hv).
    exists (ds ++ [(48 + n mod 10)%N]). split; [rewrite E, <- app_assoc; reflexivity|]. split; [destruct ds; discriminate|].
    pose proof (N.mod_lt n 10 ltac:(lia)) as Hm. split.
    + apply Forall_app; split; [exact Hds|]. constructor; [unfold is_digit; lia|constructor].
    + rewrite <- dec_decimal. unfold dec. rewrite fold_left_app. cbn [fold_left]. change (fold_left _ ds 0%Z) with (dec ds).
      rewrite dec_decimal, Hv. pose proof (N.div_mod n 10 ltac:(lia)). lia.
Qed.
Lemma size_nat_bound n : (n < 2 ^ N.of_nat (S (N.size_nat n)))%N.
Proof.
  rewrite Nat2N.inj_succ, N.pow_succ_r'. assert (n < 2 ^ N.size n)%N by apply N.size_gt.
  assert (E : N.of_nat (N.size_nat n) = N.size n).
  { clear H. destruct n as [|p]; [reflexivity|]. cbn [N.size_nat N.size]. induction p as [p IHp|p IHp|]; cbn [Pos.size_nat Pos.size]; [| |reflexivity]; change (N.of_nat (S (Pos.size_nat p)) = N.pos (Pos.succ (Pos.size p))); lia. }
  rewrite E. lia.
Qed.
Lemma str_of_N_spec n : str_of_N n <> [] /\ Forall (fun c => is_digit c = true) (str_of_N n) /\ dec (str_of_N n) = Z.of_N n.
Proof.
  unfold str_of_N. destruct (print_spec (S (N.size_nat n)) n [] (size_nat_bound n) ltac:(lia)) as (ds & E & H1 & H2 & H3).
  rewrite E, app_nil_r, dec_decimal. auto.
Qed.

(** * parsing the text form *)
Lemma take_while_app p u v : Forall (fun c => p c = true) u -> match v with [] => True | c :: _ => p c = false end ->
  take_while p (u ++ v) = u /\ drop_while p (u ++ v) = v.
Proof.
  induction 1 as [|c u Hc Hu IH]; intros Hv; simpl.
  - destruct v as [|d v]; [auto|]. simpl. rewrite Hv. auto.
  - rewrite Hc. destruct (IH Hv) as [-> ->]. auto.
Qed.
Lemma parser_match_units n u : u <> [] -> Forall (fun c => is_digit c = false) u -> hd_error u <> Some 46%N ->
  parser_match (str_of_N n ++ u) = Some (str_of_N n, None, Some u).
Proof.
  intros Hne Hu Hdot. destruct (str_of_N_spec n) as (H1 & H2 & _). unfold parser_match.
  destruct (take_while_app is_digit (str_of_N n) u H2) as [E1 E2]; [destruct u; [exact I|inversion Hu; assumption]|].
  rewrite E1, E2. destruct (str_of_N n) as [|c ds] eqn:Ed; [congruence|]. destruct u as [|d u]; [congruence|].
  destruct (N.eqb_spec d 46) as [->|_]; [simpl in Hdot; congruence|].
  destruct (take_while_app (fun c => negb (is_digit c)) (d :: u) []) as [E3 _]; [|exact I|].
  { eapply Forall_impl; [|exact Hu]. intros x ->; reflexivity. }
  rewrite app_nil_r in E3. rewrite E3. reflexivity.
Qed.

(** * units *)
Definition unit_ok (u : str) : Prop :=
  (forall c, hd_error u = Some c -> is_sep c = false) /\ (forall c, last_error u = Some c -> is_sep c = false).
Lemma strip_id p u : (forall c, hd_error u = Some c -> p c = false) -> (forall c, last_error u = Some c -> p c = false) -> strip p u = u.
Proof.
  intros H1 H2. unfold strip. assert (E : lstrip p u = u) by (destruct u as [|c u]; [reflexivity|]; simpl; rewrite (H1 c eq_refl); reflexivity).
  rewrite E. unfold rstrip. assert (E2 : lstrip p (rev u) = rev u).
  { destruct (rev u) as [|c v] eqn:Er; [reflexivity|]. simpl. rewrite (H2 c); [reflexivity|]. unfold last_error. rewrite Er; reflexivity. }
  rewrite E2. apply rev_involutive.
Qed.
Lemma strip_ok v : unit_ok (strip is_sep v).
Proof. destruct (strip_spec is_sep v) as (_ & _ & _ & _ & _ & H1 & H2). split; assumption. Qed.
Lemma to_upper_idem c : to_upper (to_upper c) = to_upper c.
Proof. unfold to_upper. destruct (is_lower c) eqn:E; [|rewrite E; reflexivity]. destruct (is_lower (c - 32)) eqn:E2; [unfold is_lower in *; lia|reflexivity]. Qed.
Lemma to_lower_idem c : to_lower (to_lower c) = to_lower c.
Proof. unfold to_lower. destruct (is_upper c) eqn:E; [|rewrite E; reflexivity]. destruct (is_upper (c + 32)) eqn:E2; [unfold is_upper in *; lia|reflexivity]. Qed.
Lemma sep_not_letter c : is_sep c = true -> is_lower c = false /\ is_upper c = false.
Proof.
  unfold is_sep. intros H. apply cmem_In in H. unfold seps in H. vm_compute in H.
  repeat (destruct H as [<-|H]; [split; reflexivity|]). destruct H.
Qed.
Lemma is_sep_upper c : is_sep c = false -> is_sep (to_upper c) = false.
Proof.
  intros H. unfold to_upper. destruct (is_lower c) eqn:E; [|exact H]. destruct (is_sep (c - 32)) eqn:E2; [|reflexivity].
  apply sep_not_letter in E2 as [_ E2]. unfold is_upper, is_lower in *. lia.
Qed.
Lemma is_sep_lower c : is_sep c = false -> is_sep (to_lower c) = false.
Proof.
  intros H. unfold to_lower. destruct (is_upper c) eqn:E; [|exact H]. destruct (is_sep (c + 32)) eqn:E2; [|reflexivity].
  apply sep_not_letter in E2 as [E2 _]. unfold is_upper, is_lower in *. lia.
Qed.
Lemma hd_map {A B} (f : A -> B) s : hd_error (map f s) = option_map f (hd_error s).
Proof. destruct s; reflexivity. Qed.
Lemma last_map {A B} (f : A -> B) s : last_error (map f s) = option_map f (last_error s).
Proof. unfold last_error. rewrite <- map_rev. apply hd_map. Qed.

Lemma size_units_fix v : unit_ok (upper (strip is_sep v)) /\ upper (upper (strip is_sep v)) = upper (strip is_sep v).
Proof.
  destruct (strip_ok v) as [H1 H2]. split; [split|].
  - unfold upper. intros c. rewrite hd_map. destruct (hd_error (strip is_sep v)) as [d|]; simpl; [|discriminate]. intros H; injection H as <-. apply is_sep_upper, H1; reflexivity.
  - unfold upper. intros c. rewrite last_map. destruct (last_error (strip is_sep v)) as [d|]; simpl; [|discriminate]. intros H; injection H as <-. apply is_sep_upper, H2; reflexivity.
  - unfold upper. rewrite map_map. apply map_ext. apply to_upper_idem.
Qed.

(** capitalised: the first character is not a lower-case letter, no other one is upper-case *)
Definition capital (s : str) : Prop :=
  match s with [] => True | c :: r => is_lower c = false /\ Forall (fun d => is_upper d = false) r end.
Lemma capitalize_capital s : capital (capitalize s).
Proof.
  destruct s as [|c r]; [exact I|]. split.
  - unfold to_upper. destruct (is_lower c) eqn:E; [unfold is_lower in *; lia|exact E].
  - unfold lower. apply Forall_map, Forall_forall. intros d _. unfold to_lower. destruct (is_upper d) eqn:E; [unfold is_upper in *; lia|exact E].
Qed.
Lemma capital_fix s : capital s -> capitalize s = s.
Proof.
  destruct s as [|c r]; [reflexivity|]. intros [H1 H2]. simpl. f_equal; [unfold to_upper; rewrite H1; reflexivity|].
  unfold lower. rewrite <- (map_id r) at 2. apply map_ext_in. intros d Hd. rewrite Forall_forall in H2. unfold to_lower. rewrite (H2 d Hd). reflexivity.
Qed.
Lemma capitalize_ok s : unit_ok s -> unit_ok (capitalize s).
Proof.
  intros [H1 H2]. destruct s as [|c r]; [split; discriminate|]. split.
  - intros d Hd; injection Hd as <-. apply is_sep_upper, H1; reflexivity.
  - intros d. simpl. rewrite last_error_cons. rewrite last_error_cons in H2. unfold lower. destruct r as [|e r]; simpl map; cbn iota.
    + intros Hd; injection Hd as <-. apply is_sep_upper, H2; reflexivity.
    + change (to_lower e :: map to_lower r) with (map to_lower (e :: r)). rewrite last_map. destruct (last_error (e :: r)) as [x|]; simpl; [|discriminate].
      intros Hd; injection Hd as <-. apply is_sep_lower, H2; reflexivity.
Qed.

Section Replace.
  Context (old' : str) (b : char).
  Let old := b :: old'.
  Let new := lit "bps".
  Lemma go_skip s : forall k, replace_go old new s k = replace_go old new (skipn k s) 0.
  Proof. induction s as [|c s IH]; intros [|k]; try reflexivity. cbn [replace_go skipn]. apply IH. Qed.
  Lemma go_Forall (P : char -> Prop) s : Forall P new -> forall k, Forall P s -> Forall P (replace_go old new s k).
  Proof.
    intros Hn. induction s as [|c s IH]; intros k Hs; cbn [replace_go]; [constructor|]. inversion Hs; subst.
    destruct k; [|apply IH; assumption]. destruct (startswith old (c :: s)); [apply Forall_app; split; [exact Hn|apply IH; assumption]|constructor; [assumption|apply IH; assumption]].
  Qed.
  Lemma go_nil s : replace_go old new s 0 = [] -> s = [].
  Proof. destruct s as [|c s]; [reflexivity|]. cbn [replace_go]. destruct (startswith old (c :: s)); discriminate. Qed.
  Lemma go_last s : forall k, (forall c, last_error s = Some c -> is_sep c = false) -> forall c, last_error (replace_go old new s k) = Some c -> is_sep c = false.
  Proof.
    induction s as [|x s IH]; intros k Hs c; cbn [replace_go]; [discriminate|]. rewrite last_error_cons in Hs.
    assert (Hs' : forall c, last_error s = Some c -> is_sep c = false) by (destruct s; [discriminate|exact Hs]).
    destruct k; [|apply IH; exact Hs']. destruct (startswith old (x :: s)).
    - pose proof (IH (List.length old - 1) Hs' c) as H. set (t := replace_go old new s (List.length old - 1)) in *.
      change (new ++ t) with (98%N :: 112%N :: 115%N :: t). rewrite !last_error_cons. cbn iota.
      destruct t; [|exact H]. intros Hc; injection Hc as <-. reflexivity.
    - rewrite last_error_cons. destruct (replace_go old new s 0) eqn:E; [|rewrite <- E; apply IH; exact Hs'].
      apply go_nil in E; subst s. exact (Hs c).
  Qed.
  Lemma go_hd c r : c <> b -> replace_go old new (c :: r) 0 = c :: replace_go old new r 0.
  Proof. intros H. cbn [replace_go]. unfold old at 1. simpl. destruct (N.eqb_spec b c); [congruence|]. reflexivity. Qed.
  Lemma go_id s : (forall i, startswith old (skipn i s) = false) -> replace_go old new s 0 = s.
  Proof.
    induction s as [|c s IH]; intros H; [reflexivity|]. cbn [replace_go]. pose proof (H 0) as H0; cbn [skipn] in H0; rewrite H0. f_equal. apply IH. intros i. exact (H (S i)).
  Qed.
  Lemma replace_capital s : is_lower b = true -> capital s -> capital (replace old new s) /\ (s = [] <-> replace old new s = []) /\ hd_error (replace old new s) = hd_error s.
  Proof.
    intros Hb Hs. unfold replace. destruct s as [|c r]; [repeat split; auto|]. destruct Hs as [H1 H2].
    rewrite go_hd by congruence. split; [split; [exact H1|]|split; [split; discriminate|reflexivity]].
    apply go_Forall; [|exact H2]. unfold new. repeat constructor.
  Qed.
End Replace.

Lemma no_bit_left s : forall i, startswith (lit "bit") (skipn i (replace (lit "bit") (lit "bps") s)) = false.
Proof.
  unfold replace. remember (List.length s) as n eqn:Hn. revert s Hn. induction n as [n IH] using lt_wf_ind. intros s ->.
  destruct s as [|c s]; [intros [|]; reflexivity|]. intros i. cbn [replace_go].
  destruct (startswith (lit "bit") (c :: s)) eqn:E.
  - change (lit "bit") with (ch "b" :: lit "it"). rewrite go_skip. change (ch "b" :: lit "it") with (lit "bit").
    assert (IH' := IH (List.length (skipn (List.length (lit "bit") - 1) s))).
    assert (Hlt : List.length (skipn (List.length (lit "bit") - 1) s) < List.length (c :: s)) by (rewrite skipn_length; simpl; lia).
    specialize (IH' Hlt _ eq_refl). set (t := replace_go _ _ _ _) in *.
    change (lit "bps" ++ t) with (ch "b" :: ch "p" :: ch "s" :: t).
    destruct i as [|[|[|i]]]; try reflexivity. cbn [skipn]. apply IH'.
  - assert (IHs := IH (List.length s) (Nat.lt_succ_diag_r _) s eq_refl). destruct i as [|i]; [|cbn [skipn]; apply IHs]. cbn [skipn].
    (* a new "bit" would come from an old one *)
    assert (First : forall x l, In x (lit "it") -> hd_error (replace_go (lit "bit") (lit "bps") l 0) = Some x ->
      exists l', l = x :: l' /\ replace_go (lit "bit") (lit "bps") l 0 = x :: replace_go (lit "bit") (lit "bps") l' 0).
    { intros x l Hx H. destruct l as [|y l]; [discriminate|]. cbn [replace_go] in *. destruct (startswith (lit "bit") (y :: l)).
      - change (Some (ch "b") = Some x) in H. injection H as <-. vm_compute in Hx. destruct Hx as [Hx|[Hx|[]]]; discriminate.
      - injection H as ->. eauto. }
    destruct (startswith (lit "bit") (c :: replace_go (lit "bit") (lit "bps") s 0)) eqn:E2; [|reflexivity]. exfalso.
    apply startswith_app in E2 as [t E2]. change (lit "bit" ++ t) with (ch "b" :: ch "i" :: ch "t" :: t) in E2. injection E2 as -> E2.
    destruct (First (ch "i") s) as (s1 & -> & E3); [vm_compute; auto|rewrite E2; reflexivity|]. rewrite E3 in E2. injection E2 as E2.
    destruct (First (ch "t") s1) as (s2 & -> & E4); [vm_compute; auto|rewrite E2; reflexivity|]. discriminate.
Qed.
Lemma bitrate_units_fix v :
  let f s := replace (lit "bit") (lit "bps") (replace (lit "bits") (lit "bps") (capitalize s)) in
  let u := f (strip is_sep v) in
  unit_ok u /\ f u = u.
Proof.
  intros f u. set (x := capitalize (strip is_sep v)).
  assert (Hx : capital x) by apply capitalize_capital. assert (Ox : unit_ok x) by (apply capitalize_ok, strip_ok).
  destruct (replace_capital (lit "its") (ch "b") x eq_refl Hx) as (C1 & N1 & D1). change (ch "b" :: lit "its") with (lit "bits") in *.
  set (y := replace (lit "bits") (lit "bps") x) in *.
  destruct (replace_capital (lit "it") (ch "b") y eq_refl C1) as (C2 & N2 & D2). change (ch "b" :: lit "it") with (lit "bit") in *.
  assert (Eu : u = replace (lit "bit") (lit "bps") y) by reflexivity. rewrite <- Eu in *.
  assert (Oy : forall c, last_error y = Some c -> is_sep c = false) by (apply (go_last (lit "its") (ch "b") x 0), Ox).
  split; [split|].
  - intros c. rewrite D2, D1. apply Ox.
  - rewrite Eu. apply (go_last (lit "it") (ch "b") y 0), Oy.
  - unfold f. rewrite (capital_fix u C2). pose proof (no_bit_left y) as H. rewrite <- Eu in H.
    assert (H2 : forall i, startswith (lit "bits") (skipn i u) = false).
    { intros i. specialize (H i). destruct (startswith (lit "bits") (skipn i u)) eqn:E; [|reflexivity]. apply startswith_app in E as [r E].
      rewrite E in H. discriminate. }
    pose proof (go_id (lit "its") (ch "b") u H2) as G. change (ch "b" :: lit "its") with (lit "bits") in G. unfold replace at 2. rewrite G. exact (go_id (lit "it") (ch "b") u H).
Qed.

Lemma units_idem k v u : parse_units k v = Ok u -> parse_units k (Some u) = Ok u /\ (k <> FrameRate -> unit_ok u).
Proof.
  destruct k; cbn [parse_units].
  - destruct v as [v|]; [|discriminate]. intros H; injection H as <-. destruct (size_units_fix v) as [O E]. split; [|intros _; exact O].
    rewrite (strip_id is_sep _ (proj1 O) (proj2 O)), E. reflexivity.
  - destruct v as [v|]; [|discriminate]. cbn [fold_left]. intros H; injection H as <-. destruct (bitrate_units_fix v) as [O E]. cbn zeta in O, E. split; [|intros _; exact O].
    rewrite (strip_id is_sep _ (proj1 O) (proj2 O)), E. reflexivity.
  - intros H; injection H as <-. split; [reflexivity|congruence].
Qed.
Lemma to_upper_digit c : is_digit c = false -> is_digit (to_upper c) = false.
Proof. unfold to_upper. destruct (is_lower c) eqn:E; [|auto]. unfold is_lower, is_digit in *. lia. Qed.
Lemma to_lower_digit c : is_digit c = false -> is_digit (to_lower c) = false.
Proof. unfold to_lower. destruct (is_upper c) eqn:E; [|auto]. unfold is_upper, is_digit in *. lia. Qed.
Lemma strip_Forall (P : char -> Prop) p v : Forall P v -> Forall P (strip p v).
Proof. rewrite !Forall_forall. intros H c Hc. apply H. eapply strip_In; exact Hc. Qed.
Lemma units_no_digit k v u : parse_units k v = Ok u -> match v with Some w => Forall (fun c => is_digit c = false) w | None => True end ->
  Forall (fun c => is_digit c = false) u.
Proof.
  destruct k; cbn [parse_units].
  - destruct v as [v|]; [|discriminate]. intros H Hv; injection H as <-. unfold upper. apply Forall_map.
    eapply Forall_impl; [|apply strip_Forall; exact Hv]. intros c; apply to_upper_digit.
  - destruct v as [v|]; [|discriminate]. cbn [fold_left]. intros H Hv; injection H as <-.
    apply (go_Forall (lit "it") (ch "b")); [repeat constructor|]. apply (go_Forall (lit "its") (ch "b")); [repeat constructor|].
    assert (Hs : Forall (fun c => is_digit c = false) (strip is_sep v)) by (apply strip_Forall; exact Hv).
    destruct (strip is_sep v) as [|c r]; [constructor|]. inversion Hs; subst. constructor; [apply to_upper_digit; assumption|].
    unfold lower. apply Forall_map. eapply Forall_impl; [|eassumption]. intros d; apply to_lower_digit.
  - intros H _; injection H as <-. repeat constructor.
Qed.
Lemma parser_units_no_digit s d f u : parser_match s = Some (d, f, Some u) -> Forall (fun c => is_digit c = false) u.
Proof.
  unfold parser_match. destruct (take_while is_digit s) as [|x d1]; [discriminate|].
  match goal with |- context [let '(a, b) := ?e in _] => destruct e as [frac r2] end.
  pose proof (take_while_all (fun c => negb (is_digit c)) r2) as H. destruct (take_while _ r2) as [|y w]; [discriminate|].
  intros E; injection E as _ _ <-. eapply Forall_impl; [|exact H]. intros c; cbv beta; destruct (is_digit c); [discriminate|reflexivity].
Qed.

Lemma roundtrip float_repr k s n u :
  fromstring k s = Ok (mk_q (MInt n) u) -> u <> [] -> fromstring k (str_of float_repr (mk_q (MInt n) u)) = Ok (mk_q (MInt n) u).
Proof.
  intros H Hne. unfold fromstring in H. destruct (parser_match s) as [[[d f] v]|] eqn:Ep; [|discriminate].
  destruct (parse_units k v) as [u'|] eqn:Eu; cbn [bind] in H; [|discriminate]. injection H as Hm ->.
  destruct (units_idem k v u Eu) as [Hi Hok].
  assert (Hd : Forall (fun c => is_digit c = false) u).
  { eapply units_no_digit; [exact Eu|]. destruct v as [v|]; [|exact I]. eapply parser_units_no_digit; exact Ep. }
  assert (Hdot : hd_error u <> Some 46%N).
  { destruct k; try (intros Hh; specialize (Hok ltac:(discriminate)); apply (proj1 Hok) in Hh; discriminate). cbn [parse_units] in Eu. injection Eu as <-. discriminate. }
  unfold fromstring, str_of; cbn [q_magnitude q_units]. rewrite parser_match_units by assumption. rewrite Hi; cbn [bind].
  destruct (str_of_N_spec n) as (_ & _ & ->). rewrite N2Z.id. reflexivity.
Qed.
Lemma fromstring_int k d u : d <> [] -> Forall (fun c => is_digit c = true) d -> u <> [] ->
  Forall (fun c => is_digit c = false) u -> fromstring k (d ++ u) = (x <- parse_units k (Some u); Ok (mk_q (MInt (Z.to_N (decimal d))) x)).
Proof.
  intros Hd Hds Hne Hu. unfold fromstring, parser_match.
  destruct (take_while_app is_digit d u Hds) as [E1 E2]; [destruct u; [exact I|inversion Hu; assumption]|].
  rewrite E1, E2. destruct d as [|c0 d0] eqn:Ed; [congruence|]. rewrite <- Ed. destruct u as [|c u]; [congruence|].
  assert (E3 : take_while is_digit u = []) by (destruct u as [|x u]; [reflexivity|]; inversion Hu; subst; match goal with H : Forall _ (x :: u) |- _ => inversion H; subst end; simpl; rewrite H3; reflexivity).
  rewrite E3. destruct (take_while_app (fun c => negb (is_digit c)) (c :: u) []) as [E4 _]; [|exact I|].
  { eapply Forall_impl; [|exact Hu]. intros x ->; reflexivity. }
  rewrite app_nil_r in E4. rewrite <- dec_decimal. destruct (N.eqb c 46); rewrite E4; reflexivity.
Qed.
Lemma fromstring_frac k d e u : d <> [] -> Forall (fun c => is_digit c = true) d ->
  e <> [] -> Forall (fun c => is_digit c = true) e -> u <> [] -> Forall (fun c => is_digit c = false) u ->
  fromstring k (d ++ 46%N :: e ++ u) =
  (x <- parse_units k (Some u); Ok (mk_q (MFloat (Qmake (decimal (d ++ e)) (Pos.pow 10 (Pos.of_nat (List.length e))))) x)).
Proof.
  intros Hd Hds He Hes Hne Hu. unfold fromstring, parser_match.
  destruct (take_while_app is_digit d (46%N :: e ++ u) Hds eq_refl) as [E1 E2].
  rewrite E1, E2. destruct d as [|c0 d0] eqn:Ed; [congruence|]. rewrite <- Ed. change (N.eqb 46 46) with true. cbn iota.
  destruct (take_while_app is_digit e u Hes) as [E3 E4]; [destruct u; [exact I|inversion Hu; assumption]|].
  rewrite E3, E4. destruct e as [|e0 e1] eqn:Ee; [congruence|]. rewrite <- Ee.
  destruct (take_while_app (fun c => negb (is_digit c)) u []) as [E5 _]; [|exact I|].
  { eapply Forall_impl; [|exact Hu]. intros x ->; reflexivity. }
  rewrite app_nil_r in E5. rewrite E5, <- dec_decimal. destruct u; [congruence|]. reflexivity.
Qed.
