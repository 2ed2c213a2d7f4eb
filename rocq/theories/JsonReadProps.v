(** C106: what a configuration given as JSON, in a file or in place of its name, is read as *)
From Verif Require Import Py PyFacts TextFacts Numeral NumeralProofs QuantityProofs Options OptionsProps Json JsonProps JsonRead.
From Coq Require Import Arith ZifyBool.

(** * The JSON texts of Python: those of RFC 8259, NaN, Infinity and -Infinity, and half a surrogate pair in a string *)
Definition high (v : N) : Prop := (55296 <= v <= 56319)%N.
Definition low (v : N) : Prop := (56320 <= v <= 57343)%N.
Definition low_first (r : str) : Prop := exists t v u, hex_four t v /\ low v /\ r = [92; 117]%N ++ t ++ u.
Definition escapes : list (N * N) := [(34, 34); (92, 92); (47, 47); (98, 8); (102, 12); (110, 10); (114, 13); (116, 9)]%N.
Inductive py_chars : str -> str -> Prop :=
| pc_nil : py_chars [] []
| pc_plain c r s : (32 <= c)%N -> c <> 34%N -> c <> 92%N -> py_chars r s -> py_chars (c :: r) (c :: s)
| pc_escape e c r s : In (e, c) escapes -> py_chars r s -> py_chars (92%N :: e :: r) (c :: s)
| pc_u t v r s : hex_four t v -> ~ (high v /\ low_first r) -> py_chars r s -> py_chars ([92; 117]%N ++ t ++ r) (v :: s)
| pc_pair t hi u lo r s : hex_four t hi -> hex_four u lo -> high hi -> low lo -> py_chars r s ->
    py_chars ([92; 117]%N ++ t ++ [92; 117]%N ++ u ++ r) (65536 + ((hi - 55296) * 1024 + (lo - 56320)) :: s)%N.
Definition py_string (t s : str) : Prop := exists b, py_chars b s /\ t = [34%N] ++ b ++ [34%N].
Inductive py_says : str -> jv -> Prop :=
| py_null : py_says (lit "null") JNull
| py_true : py_says (lit "true") (JBool true)
| py_false : py_says (lit "false") (JBool false)
| py_int ds : whole_text ds -> py_says ds (JInt (decimal ds))
| py_minus ds : whole_text ds -> py_says (lit "-" ++ ds) (JInt (- decimal ds))
| py_float t : float_text t -> py_says t (JFloat t)
| py_special t : t = lit "NaN" \/ t = lit "Infinity" \/ t = lit "-Infinity" -> py_says t (JFloat t)
| py_str t s : py_string t s -> py_says t (JStr s)
| py_empty_list w : blank w -> py_says ([91%N] ++ w ++ [93%N]) (JArr [])
| py_list t vs : py_items t vs -> py_says ([91%N] ++ t ++ [93%N]) (JArr vs)
| py_empty_object w : blank w -> py_says ([123%N] ++ w ++ [125%N]) (JObj [])
| py_object t kvs : py_members t kvs -> py_says ([123%N] ++ t ++ [125%N]) (JObj kvs)
| py_blank w1 w2 t v : blank w1 -> blank w2 -> py_says t v -> py_says (w1 ++ t ++ w2) v
with py_items : str -> list jv -> Prop :=
| pi_one t v : py_says t v -> py_items t [v]
| pi_more t v r vs : py_says t v -> py_items r vs -> py_items (t ++ [44%N] ++ r) (v :: vs)
with py_members : str -> list (str * jv) -> Prop :=
| pm_one w1 w2 n k t v : blank w1 -> blank w2 -> py_string n k -> py_says t v -> py_members (w1 ++ n ++ w2 ++ [58%N] ++ t) [(k, v)]
| pm_more w1 w2 n k t v r kvs : blank w1 -> blank w2 -> py_string n k -> py_says t v -> py_members r kvs ->
    py_members (w1 ++ n ++ w2 ++ [58%N] ++ t ++ [44%N] ++ r) ((k, v) :: kvs).
Scheme py_rec2 := Induction for py_says Sort Prop with pi_rec2 := Induction for py_items Sort Prop with pm_rec2 := Induction for py_members Sort Prop.
Combined Scheme py_all from py_rec2, pi_rec2, pm_rec2.

(** the value read: an object is the dictionary its members make, one after the other *)
Definition dict_of (l : list (str * val)) (d : dict) : dict := fold_left (fun d kv => dset d (KS (fst kv)) (snd kv)) l d.
Fixpoint value (pf : str -> val) (j : jv) : val :=
  match j with
  | JNull => VNone | JBool b => VBool b | JInt z => VInt z | JFloat t => pf t | JStr s => VStr s
  | JArr l => VList (map (value pf) l)
  | JObj d => VDict (dict_of (map (fun kv => (fst kv, value pf (snd kv))) d) [])
  end.
(** integers of at most 4300 digits *)
Definition most : Z := (10 ^ 4300)%Z.
Fixpoint short (j : jv) : Prop :=
  match j with
  | JInt z => (Z.abs z < most)%Z
  | JArr l => fold_right (fun x p => short x /\ p) True l
  | JObj d => fold_right (fun x p => short (snd x) /\ p) True d
  | _ => True
  end.

(** * Texts of RFC 8259 are among them *)
Lemma written_py b s : written_chars b s -> py_chars b s.
Proof.
  induction 1 as [|t c r s W _ IH]; [constructor|].
  destruct W; cbn [app]; try (apply pc_escape; [repeat (first [left; reflexivity|right])|exact IH]).
  - constructor; assumption.
  - apply (pc_u [a; b; c; d]); [exists a, b, c, d, x, y, z, w; auto 10|unfold high; lia|exact IH].
  - apply (pc_pair [a; b; c; d] hi [e; f; g; h] lo); assumption.
Qed.
Lemma string_py t s : string_text t s -> py_string t s.
Proof. intros (b & W & ->). exists b. split; [exact (written_py b s W)|reflexivity]. Qed.
Lemma rfc_py : (forall t v, says t v -> py_says t v) /\ (forall t vs, say_items t vs -> py_items t vs) /\ (forall t kvs, say_members t kvs -> py_members t kvs).
Proof. apply says_all; intros; try (constructor; try apply string_py; assumption). Qed.

(** * The pieces *)
Lemma ws_iff c : whitespace c = blankb c.
Proof. reflexivity. Qed.
Lemma skip_ws_is s : skip_ws s = skip s.
Proof. unfold skip_ws. induction s as [|c s IH]; [reflexivity|]. cbn [drop_while skip]. rewrite IH. reflexivity. Qed.
Lemma skip_split s : exists w, blank w /\ s = w ++ skip s.
Proof.
  induction s as [|c s (w & B & E)]; [exists []; split; [intros x []|reflexivity]|]. cbn [skip]. destruct (blankb c) eqn:K.
  - exists (c :: w). split; [|cbn [app]; congruence]. intros x [<- |H]; [exact (proj1 (blank_iff c) K)|exact (B x H)].
  - exists []. split; [intros x []|reflexivity].
Qed.
Lemma hex_value_is c v : hex_value c = Some v <-> hex_digit c v.
Proof.
  unfold hex_value, hex_digit. destruct ((48 <=? c)%N && (c <=? 57)%N) eqn:E1; [split; [intros H; injection H; lia|intros H; f_equal; lia]|].
  destruct ((97 <=? c)%N && (c <=? 102)%N) eqn:E2; [split; [intros H; injection H; lia|intros H; f_equal; lia]|].
  destruct ((65 <=? c)%N && (c <=? 70)%N) eqn:E3; [split; [intros H; injection H; lia|intros H; f_equal; lia]|]. split; [discriminate|lia].
Qed.
Lemma decode_u_is a b c d v : decode_u a b c d = Some v <-> hex_four [a; b; c; d] v.
Proof.
  unfold decode_u. split.
  - destruct (hex_value a) as [x|] eqn:A; [|discriminate]. destruct (hex_value b) as [y|] eqn:B; [|discriminate].
    destruct (hex_value c) as [z|] eqn:C; [|discriminate]. destruct (hex_value d) as [w|] eqn:D; [|discriminate]. intros H. injection H as <-.
    apply hex_value_is in A, B, C, D. exists a, b, c, d, x, y, z, w. auto 10.
  - intros (a' & b' & c' & d' & x & y & z & w & E & A & B & C & D & ->). injection E as -> -> -> ->. apply hex_value_is in A, B, C, D.
    rewrite A, B, C, D. reflexivity.
Qed.
Lemma backslash_is e c : backslash e = Some c <-> In (e, c) escapes.
Proof.
  unfold backslash, escapes. split.
  - intros H. repeat (match type of H with (if (?x =? ?k)%N then _ else _) = _ => let E := fresh in destruct (x =? k)%N eqn:E;
      [apply N.eqb_eq in E; subst; injection H as <-; repeat (first [left; reflexivity|right])|] end). discriminate.
  - intros H. cbn in H. repeat (destruct H as [H|H]; [injection H as <- <-; reflexivity|]). contradiction.
Qed.
Lemma four t v : hex_four t v -> exists a b c d, t = [a; b; c; d] /\ decode_u a b c d = Some v.
Proof. intros H. pose proof H as (a & b & c & d & _ & _ & _ & _ & -> & _). exists a, b, c, d. split; [reflexivity|]. apply decode_u_is, H. Qed.

Lemma string_complete b s : py_chars b s -> forall r, scanstring (b ++ [34%N] ++ r) = Some (s, r).
Proof.
  induction 1 as [|c b s H1 H2 H3 _ IH|e c b s He _ IH|t v b s Ht Hn P IH|t hi u lo b s Ht Hu Hh Hl _ IH]; intros r.
  - reflexivity.
  - cbn [app scanstring]. destruct (c =? 34)%N eqn:E1; [lia|]. destruct (c =? 92)%N eqn:E2; [lia|]. destruct (c <? 32)%N eqn:E3; [lia|].
    specialize (IH r). cbn [app] in IH. rewrite IH. reflexivity.
  - cbn [app scanstring]. change (92 =? 34)%N with false. change (92 =? 92)%N with true. cbv iota.
    destruct (e =? 117)%N eqn:E; [apply N.eqb_eq in E; subst e; exfalso; cbn in He; repeat (destruct He as [He|He]; [discriminate He|]); exact He|].
    rewrite (proj2 (backslash_is e c) He). specialize (IH r). cbn [app] in IH. rewrite IH. reflexivity.
  - destruct (four t v Ht) as (a1 & a2 & a3 & a4 & -> & D). specialize (IH r). rewrite <- !app_assoc. cbn [app scanstring] in *.
    change (92 =? 34)%N with false. change (92 =? 92)%N with true. change (117 =? 117)%N with true. cbv iota. rewrite D.
    destruct ((55296 <=? v)%N && (v <=? 56319)%N && startswith [92; 117]%N (b ++ 34%N :: r)) eqn:E; [|rewrite IH; reflexivity].
    apply andb_prop in E. destruct E as [E1 E2]. assert (Hv : high v) by (unfold high; lia).
    destruct P as [|c b s C1 C2 C3 P|e c b s He P|t2 v2 b s Ht2 Hn2 P|t2 hi2 u2 lo2 b s Ht2 Hu2 Hh2 Hl2 P].
    + discriminate E2.
    + cbn [app startswith] in E2. destruct (92 =? c)%N eqn:K; [apply N.eqb_eq in K; congruence|discriminate].
    + cbn [app startswith] in E2. destruct (117 =? e)%N eqn:K; [|discriminate]. apply N.eqb_eq in K. subst e.
      exfalso. cbn in He. repeat (destruct He as [He|He]; [discriminate He|]). exact He.
    + destruct (four t2 v2 Ht2) as (b1 & b2 & b3 & b4 & -> & D2). cbn [app] in *. rewrite D2.
      destruct ((56320 <=? v2)%N && (v2 <=? 57343)%N) eqn:L; [exfalso; apply Hn; split; [exact Hv|]|rewrite IH; reflexivity].
      exists [b1; b2; b3; b4], v2, b. split; [exact Ht2|]. split; [unfold low; lia|reflexivity].
    + destruct (four t2 hi2 Ht2) as (b1 & b2 & b3 & b4 & -> & D2). cbn [app] in *. rewrite D2.
      replace ((56320 <=? hi2)%N && (hi2 <=? 57343)%N) with false by (unfold high in Hh2; lia). rewrite IH. reflexivity.
  - destruct (four t hi Ht) as (a1 & a2 & a3 & a4 & -> & D1). destruct (four u lo Hu) as (b1 & b2 & b3 & b4 & -> & D2). specialize (IH r).
    rewrite <- !app_assoc. cbn [app scanstring] in *.
    change (92 =? 34)%N with false. change (92 =? 92)%N with true. change (117 =? 117)%N with true. cbv iota. rewrite D1.
    replace ((55296 <=? hi)%N && (hi <=? 56319)%N) with true by (unfold high in Hh; lia). cbn [andb startswith].
    change (92 =? 92)%N with true. change (117 =? 117)%N with true. cbv iota. cbn [andb]. rewrite D2.
    replace ((56320 <=? lo)%N && (lo <=? 57343)%N) with true by (unfold low in Hl; lia). rewrite IH. reflexivity.
Qed.
Lemma chunk_some c o s r : chunk c o = Some (s, r) -> exists s', o = Some (s', r) /\ s = c :: s'.
Proof. destruct o as [[s' r']|]; [|discriminate]. cbn. intros H. injection H as <- <-. exists s'. split; reflexivity. Qed.
Lemma string_sound n : forall s k r, List.length s <= n -> scanstring s = Some (k, r) -> exists b, py_chars b k /\ s = b ++ [34%N] ++ r.
Proof.
  induction n as [|n IH]; intros s k r L H; (destruct s as [|c s]; [discriminate|]); [cbn in L; lia|]. cbn [scanstring List.length] in *.
  destruct (c =? 34)%N eqn:E1; [injection H as <- <-; apply N.eqb_eq in E1; subst c; exists []; split; [constructor|reflexivity]|].
  destruct (c =? 92)%N eqn:E2.
  - apply N.eqb_eq in E2. subst c. destruct s as [|e s]; [discriminate|]. cbn [List.length] in L. destruct (e =? 117)%N eqn:E3.
    + apply N.eqb_eq in E3. subst e. destruct s as [|a1 [|a2 [|a3 [|a4 s]]]]; try discriminate. cbn [List.length] in L.
      destruct (decode_u a1 a2 a3 a4) as [v|] eqn:D; [|discriminate]. apply decode_u_is in D.
      destruct ((55296 <=? v)%N && (v <=? 56319)%N && startswith [92; 117]%N s) eqn:K.
      * apply andb_prop in K. destruct K as [K1 K2]. destruct s as [|x1 [|x2 [|b1 [|b2 [|b3 [|b4 s]]]]]]; try discriminate. cbn [List.length] in L.
        cbn [startswith] in K2. assert (X : x1 = 92%N /\ x2 = 117%N) by lia. destruct X as [-> ->].
        destruct (decode_u b1 b2 b3 b4) as [v2|] eqn:D2; [|discriminate]. apply decode_u_is in D2.
        destruct ((56320 <=? v2)%N && (v2 <=? 57343)%N) eqn:K3.
        -- apply chunk_some in H. destruct H as (k' & H & ->). apply IH in H; [|lia]. destruct H as (b & P & ->).
           exists ([92; 117]%N ++ [a1; a2; a3; a4] ++ [92; 117]%N ++ [b1; b2; b3; b4] ++ b). split; [|reflexivity].
           apply pc_pair; [exact D|exact D2|unfold high; lia|unfold low; lia|exact P].
        -- apply chunk_some in H. destruct H as (k' & H & ->). apply IH in H; [|cbn [List.length]; lia]. destruct H as (b & P & E).
           exists ([92; 117]%N ++ [a1; a2; a3; a4] ++ b). split; [|rewrite E; cbn [app]; reflexivity].
           apply pc_u; [exact D| |exact P]. intros (_ & t & w & u & Ht & Hw & F). destruct (four t w Ht) as (c1 & c2 & c3 & c4 & -> & D3).
           rewrite F in E. cbn [app] in E. injection E as -> -> -> -> E. apply decode_u_is in D2. unfold low in Hw. assert (w = v2) by congruence. lia.
      * apply chunk_some in H. destruct H as (k' & H & ->). apply IH in H; [|lia]. destruct H as (b & P & ->).
        exists ([92; 117]%N ++ [a1; a2; a3; a4] ++ b). split; [|reflexivity]. apply pc_u; [exact D| |exact P].
        intros (Hv & t & w & u & Ht & Hw & ->). cbn [app startswith] in K. unfold high in Hv. lia.
    + destruct (backslash e) as [x|] eqn:B; [|discriminate]. apply backslash_is in B. apply chunk_some in H. destruct H as (k' & H & ->).
      apply IH in H; [|lia]. destruct H as (b & P & ->). exists (92%N :: e :: b). split; [apply pc_escape; assumption|reflexivity].
  - destruct (c <? 32)%N eqn:E3; [discriminate|]. apply chunk_some in H. destruct H as (k' & H & ->). apply IH in H; [|lia].
    destruct H as (b & P & ->). exists (c :: b). split; [apply pc_plain; [lia|lia|lia|exact P]|reflexivity].
Qed.

(** * Numbers *)
Definition stop (r : str) : Prop := match r with [] => True | c :: _ => is_digit c = false end.
Lemma run_digits s : s = take_while is_digit s ++ drop_while is_digit s /\ Forall (fun c => is_digit c = true) (take_while is_digit s) /\ stop (drop_while is_digit s).
Proof.
  induction s as [|c s (A & B & C)]; [repeat split; constructor|]. cbn [take_while drop_while]. destruct (is_digit c) eqn:E.
  - cbn [app]. split; [congruence|]. split; [constructor; assumption|exact C].
  - split; [reflexivity|]. split; [constructor|exact E].
Qed.
Lemma whole_complete ds r : whole_text ds -> stop r -> number_whole (ds ++ r) = Some (ds, r).
Proof.
  intros ((Hn & F) & Z) S. destruct ds as [|c ds]; [congruence|]. destruct (take_while_app is_digit (c :: ds) r F S) as [E1 E2].
  cbn [number_whole app] in *. destruct (c =? 48)%N eqn:E; [apply N.eqb_eq in E; subst c; rewrite (Z ds eq_refl); reflexivity|].
  inversion F. subst. rewrite H1, E1, E2. reflexivity.
Qed.
Lemma whole_sound s ds r : number_whole s = Some (ds, r) -> whole_text ds /\ s = ds ++ r.
Proof.
  destruct s as [|c s]; [discriminate|]. cbn [number_whole]. destruct (c =? 48)%N eqn:E.
  - intros H. injection H as <- <-. apply N.eqb_eq in E. subst c. split; [|reflexivity].
    split; [split; [discriminate|constructor; [reflexivity|constructor]]|]. intros u H. injection H as <-. reflexivity.
  - destruct (is_digit c) eqn:D; [|discriminate]. intros H. injection H as <- <-. destruct (run_digits (c :: s)) as (A & B & _).
    split; [|exact A]. split; [split; [cbn [take_while]; rewrite D; discriminate|exact B]|].
    intros u H. cbn [take_while] in H. rewrite D in H. injection H as -> _. discriminate E.
Qed.
Lemma frac_complete f r : fraction f -> stop r -> number_frac (f ++ r) = (f, r).
Proof.
  intros (ds & (Hn & F) & ->) S. cbn [app number_frac]. change (46 =? 46)%N with true. cbv iota.
  destruct (take_while_app is_digit ds r F S) as [-> ->]. destruct ds; [congruence|reflexivity].
Qed.
Lemma frac_none r : match r with c :: _ => c <> 46%N | [] => True end -> number_frac r = ([], r).
Proof. destruct r as [|c r]; [reflexivity|]. cbn [number_frac]. intros H. destruct (c =? 46)%N eqn:E; [lia|reflexivity]. Qed.
Lemma frac_sound s f r : number_frac s = (f, r) -> s = f ++ r /\ (f = [] \/ fraction f).
Proof.
  destruct s as [|c s]; cbn [number_frac]; [intros H; injection H as <- <-; auto|]. destruct (c =? 46)%N eqn:E; [|intros H; injection H as <- <-; auto].
  apply N.eqb_eq in E. subst c. destruct (run_digits s) as (A & B & _). destruct (take_while is_digit s) as [|d ds]; intros H; injection H as <- <-; [auto|].
  cbn [app] in *. split; [congruence|]. right. exists (d :: ds). split; [split; [discriminate|exact B]|reflexivity].
Qed.
Lemma exp_complete x r : exponent x -> stop r -> number_exp (x ++ r) = (x, r).
Proof.
  intros (e & s & ds & He & Hs & (Hn & F) & ->) S. cbn [app number_exp]. replace ((e =? 101)%N || (e =? 69)%N) with true by (destruct He; subst; reflexivity).
  destruct (take_while_app is_digit ds r F S) as [E1 E2]. destruct ds as [|d ds]; [congruence|].
  destruct Hs as [-> |[-> | ->]].
  - cbn [app] in *. replace ((d =? 45)%N || (d =? 43)%N) with false by (inversion F; subst; revert H1; unfold is_digit; lia). rewrite E1, E2. reflexivity.
  - cbn [app lit] in *. rewrite <- app_assoc. cbn. cbn in E1, E2. rewrite E1, E2. reflexivity.
  - rewrite <- app_assoc. cbn. cbn in E1, E2. rewrite E1, E2. reflexivity.
Qed.
Lemma exp_none r : match r with c :: _ => c <> 101%N /\ c <> 69%N | [] => True end -> number_exp r = ([], r).
Proof. destruct r as [|c r]; [reflexivity|]. cbn [number_exp]. intros H. destruct ((c =? 101)%N || (c =? 69)%N) eqn:E; [lia|reflexivity]. Qed.
Lemma exp_sound s x r : number_exp s = (x, r) -> s = x ++ r /\ (x = [] \/ exponent x).
Proof.
  destruct s as [|c s]; cbn [number_exp]; [intros H; injection H as <- <-; auto|].
  destruct ((c =? 101)%N || (c =? 69)%N) eqn:E; [|intros H; injection H as <- <-; auto].
  assert (Hc : c = 101%N \/ c = 69%N) by lia.
  assert (Q : forall sg r1, s = sg ++ r1 -> sign sg -> match take_while is_digit r1 with [] => ([], c :: s) | d :: l => (c :: sg ++ d :: l, drop_while is_digit r1) end = (x, r) ->
    c :: s = x ++ r /\ (x = [] \/ exponent x)).
  { intros sg r1 -> Sg H. destruct (run_digits r1) as (A & B & _). destruct (take_while is_digit r1) as [|d ds]; injection H as <- <-; [auto|].
    split; [cbn [app]; rewrite <- app_assoc, A at 1; reflexivity|]. right. exists c, sg, (d :: ds). repeat split; auto. discriminate. }
  destruct s as [|y s]; [apply (Q [] []); [reflexivity|left; reflexivity]|]. destruct ((y =? 45)%N || (y =? 43)%N) eqn:E2.
  - apply (Q [y] s); [reflexivity|]. right. unfold lit. cbn. assert (Hy : y = 45%N \/ y = 43%N) by lia. destruct Hy as [-> | ->]; auto.
  - apply (Q [] (y :: s)); [reflexivity|left; reflexivity].
Qed.
Lemma decimal_bound ds : Forall (fun c => is_digit c = true) ds -> (0 <= decimal ds < 10 ^ Z.of_nat (List.length ds))%Z.
Proof.
  induction 1 as [|c ds H _ IH]; [cbn; lia|]. cbn [decimal List.length]. rewrite Nat2Z.inj_succ, Z.pow_succ_r by lia.
  assert (0 <= Z.of_N c - 48 <= 9)%Z by (revert H; unfold is_digit; lia). nia.
Qed.
Lemma digits_count_n n ds : 1 <= n -> whole_text ds -> (List.length ds <= n <-> (decimal ds < 10 ^ Z.of_nat n)%Z).
Proof.
  intros N1 ((Hn & F) & Z). pose proof (decimal_bound ds F) as B. split.
  - intros L. apply (Z.lt_le_trans _ _ _ (proj2 B)). apply Z.pow_le_mono_r; lia.
  - intros L. destruct ds as [|c ds]; [cbn; lia|]. destruct (Nat.le_gt_cases (List.length (c :: ds)) n) as [K|K]; [exact K|exfalso].
    assert (c <> 48%N) by (intros ->; rewrite (Z ds eq_refl) in K; cbn in K; lia). inversion F as [|? ? Hc F2]. subst.
    pose proof (decimal_bound ds F2) as B2. cbn [decimal List.length] in *.
    assert (1 <= Z.of_N c - 48)%Z by (revert Hc; unfold is_digit; lia).
    assert (10 ^ Z.of_nat n <= 10 ^ Z.of_nat (List.length ds))%Z by (apply Z.pow_le_mono_r; lia). nia.
Qed.
Lemma max_is : 1 <= max_str_digits /\ (10 ^ Z.of_nat max_str_digits)%Z = most.
Proof. unfold max_str_digits, most. rewrite N_nat_Z. split; [|reflexivity]. apply Nat.leb_le. vm_compute. reflexivity. Qed.
Lemma digits_count ds : whole_text ds -> (List.length ds <= max_str_digits <-> (decimal ds < most)%Z).
Proof. intros W. destruct max_is as [A <-]. exact (digits_count_n max_str_digits ds A W). Qed.
Global Opaque most max_str_digits.
Lemma whole_first ds : whole_text ds -> exists c r, ds = c :: r /\ is_digit c = true.
Proof. intros ((Hn & F) & _). destruct F as [|c r H F]; [congruence|]. exists c, r. auto. Qed.
Lemma follow_stop r : follow r -> stop r.
Proof. destruct r as [|c r]; [trivial|]. cbn. unfold blankb, is_digit. lia. Qed.
Lemma follow_after r : follow r -> number_frac r = ([], r) /\ number_exp r = ([], r).
Proof. intros F. split; [apply frac_none|apply exp_none]; (destruct r as [|c r]; [trivial|]); cbn in F; revert F; unfold blankb; lia. Qed.
Lemma sign_split m ds r : (m = [] \/ m = lit "-") -> whole_text ds -> number_sign (m ++ ds ++ r) = (m, ds ++ r).
Proof.
  intros [-> | ->] W; [|reflexivity]. destruct (whole_first ds W) as (c & u & -> & D). cbn [app number_sign].
  destruct (c =? 45)%N eqn:E; [apply N.eqb_eq in E; subst c; discriminate D|reflexivity].
Qed.
Lemma int_complete pf m ds r : (m = [] \/ m = lit "-") -> whole_text ds -> (decimal ds < most)%Z -> follow r ->
  scan_number pf (m ++ ds ++ r) = Some (Some (VInt (match m with [] => decimal ds | _ => - decimal ds end), r)).
Proof.
  intros M W L F. unfold scan_number. rewrite (sign_split m ds r M W), (whole_complete ds r W (follow_stop r F)).
  destruct (follow_after r F) as [-> ->]. cbn [app]. apply (digits_count ds W) in L. destruct (max_str_digits <? List.length ds)%nat eqn:E; [apply Nat.ltb_lt in E; lia|].
  rewrite dec_decimal. reflexivity.
Qed.
Lemma float_complete pf t r : float_text t -> follow r -> scan_number pf (t ++ r) = Some (Some (pf t, r)).
Proof.
  intros (m & ds & tail & M & W & -> & T) F. rewrite <- !app_assoc. unfold scan_number. rewrite (sign_split m ds _ M W).
  pose proof (follow_stop r F) as S. destruct (follow_after r F) as [F1 F2].
  assert (K : forall f e, (fraction f \/ f = []) -> (exponent e \/ e = []) -> f ++ e <> [] ->
    (let (fr, r2) := number_frac ((f ++ e) ++ r) in let (ex, r3) := number_exp r2 in
      match fr ++ ex with [] => if (max_str_digits <? List.length ds)%nat then Some None else Some (Some (VInt (match m with [] => dec ds | _ => - dec ds end), r3))
      | _ => Some (Some (pf (m ++ ds ++ fr ++ ex), r3)) end) = Some (Some (pf (m ++ ds ++ f ++ e), r)) /\ stop ((f ++ e) ++ r)).
  { intros f e Hf He Hn. assert (Se : stop (e ++ r)) by (destruct He as [(a & b & c & [-> | ->] & _ & _ & ->)| ->]; [reflexivity|reflexivity|exact S]).
    assert (E1 : number_frac ((f ++ e) ++ r) = (f, e ++ r)).
    { rewrite <- app_assoc. destruct Hf as [Hf| ->]; [exact (frac_complete f _ Hf Se)|]. destruct He as [(a & b & c & [-> | ->] & _ & _ & ->)| ->]; [reflexivity|reflexivity|exfalso; exact (Hn eq_refl)]. }
    rewrite E1. assert (E2 : number_exp (e ++ r) = (e, r)) by (destruct He as [He| ->]; [exact (exp_complete e r He S)|exact F2]). rewrite E2.
    destruct (f ++ e) eqn:Q; [congruence|]. split; [reflexivity|]. destruct Hf as [(d & _ & ->)| ->]; [injection Q as <- _; reflexivity|]. cbn [app] in Q. subst e. exact Se. }
  assert (P : exists f e, tail = f ++ e /\ (fraction f \/ f = []) /\ (exponent e \/ e = []) /\ f ++ e <> []).
  { destruct T as [T|[T|(f & e & T1 & T2 & ->)]].
    - exists tail, []. rewrite app_nil_r. repeat split; auto. destruct T as (? & _ & ->). discriminate.
    - exists [], tail. repeat split; auto. destruct T as (? & ? & ? & _ & _ & _ & ->). discriminate.
    - exists f, e. repeat split; auto. destruct T1 as (? & _ & ->). discriminate. }
  destruct P as (f & e & -> & Hf & He & Hn). destruct (K f e Hf He Hn) as [E Sx]. rewrite (whole_complete ds _ W Sx). exact E.
Qed.
Lemma number_sound pf s v r : scan_number pf s = Some (Some (v, r)) -> exists t j, s = t ++ r /\ py_says t j /\ short j /\ v = value pf j.
Proof.
  unfold scan_number. destruct (number_sign s) as [sg r0] eqn:S.
  assert (Hs : s = sg ++ r0 /\ (sg = [] \/ sg = lit "-")).
  { destruct s as [|c s]; cbn [number_sign] in S; [injection S as <- <-; auto|]. destruct (c =? 45)%N eqn:E; injection S as <- <-; [|auto].
    apply N.eqb_eq in E. subst c. auto. }
  destruct Hs as [-> Hs]. destruct (number_whole r0) as [[ds r1]|] eqn:W; [|discriminate]. apply whole_sound in W. destruct W as [W ->].
  destruct (number_frac r1) as [fr r2] eqn:Fr. apply frac_sound in Fr. destruct Fr as [-> Fr].
  destruct (number_exp r2) as [ex r3] eqn:Ex. apply exp_sound in Ex. destruct Ex as [-> Ex].
  destruct (fr ++ ex) as [|x l] eqn:Q.
  - apply app_eq_nil in Q. destruct Q as [-> ->]. destruct (max_str_digits <? List.length ds)%nat eqn:L; [discriminate|]. intros H. injection H as <- <-.
    assert (L' : List.length ds <= max_str_digits) by (apply Nat.ltb_ge; exact L). apply (digits_count ds W) in L'. rewrite dec_decimal. pose proof (decimal_bound ds (proj2 (proj1 W))) as B. destruct Hs as [-> | ->].
    + exists ds, (JInt (decimal ds)). split; [reflexivity|]. split; [constructor; exact W|]. split; [cbn [short]; lia|reflexivity].
    + exists (lit "-" ++ ds), (JInt (- decimal ds)). split; [rewrite <- app_assoc; reflexivity|]. split; [constructor; exact W|]. split; [cbn [short]; lia|reflexivity].
  - intros H. injection H as <- <-. exists (sg ++ ds ++ x :: l), (JFloat (sg ++ ds ++ x :: l)). rewrite <- Q. split; [rewrite <- !app_assoc; reflexivity|].
    split; [|split; [exact Logic.I|reflexivity]]. constructor. exists sg, ds, (fr ++ ex). split; [exact Hs|]. split; [exact W|]. split; [reflexivity|].
    destruct Fr as [-> |Fr], Ex as [-> |Ex]; [discriminate Q|auto|rewrite app_nil_r; auto|]. right. right. exists fr, ex. auto.
Qed.

(** * Whole texts *)
Lemma after_is w v s o : after w v s = Some o -> s = w ++ snd o /\ fst o = v.
Proof.
  unfold after. destruct (startswith w s) eqn:E; [|discriminate]. apply startswith_app in E. destruct E as (r & ->). intros H. injection H as <-.
  cbn [fst snd]. rewrite skipn_app, skipn_all, Nat.sub_diag. split; reflexivity.
Qed.
Lemma dict_of_cons k v l d : dict_of ((k, v) :: l) d = dict_of l (dset d (KS k) v).
Proof. reflexivity. Qed.
Lemma pad_left w t v : blank w -> py_says t v -> py_says (w ++ t) v.
Proof. intros B S. rewrite <- (app_nil_r t). apply py_blank; [exact B|intros x []|exact S]. Qed.
Lemma pad_right w t v : blank w -> py_says t v -> py_says (t ++ w) v.
Proof. intros B S. apply (py_blank [] w t v); [intros x []|exact B|exact S]. Qed.
Definition member_values (pf : str -> val) (kvs : list (str * jv)) : list (str * val) := map (fun kv => (fst kv, value pf (snd kv))) kvs.
Definition all_short {A} (f : A -> jv) (l : list A) : Prop := fold_right (fun x p => short (f x) /\ p) True l.

Lemma scan_sound pf n :
  (forall s v r, scan_once pf n s = Some (v, r) -> exists t j, s = t ++ r /\ py_says t j /\ short j /\ v = value pf j) /\
  (forall s l r, scan_items pf n s = Some (l, r) -> exists t js, s = t ++ [93%N] ++ r /\ py_items t js /\ all_short (fun x => x) js /\ l = map (value pf) js) /\
  (forall s d0 d r, scan_members pf n s d0 = Some (d, r) -> exists t kvs, 34%N :: s = t ++ [125%N] ++ r /\ py_members t kvs /\ all_short snd kvs /\
     d = dict_of (member_values pf kvs) d0).
Proof.
  induction n as [|n (IH1 & IH2 & IH3)]; [repeat split; intros; discriminate|]. split; [|split].
  - intros s v r. destruct s as [|c s]; [discriminate|]. cbn [scan_once].
    destruct (c =? 34)%N eqn:E1.
    { apply N.eqb_eq in E1. subst c. destruct (scanstring s) as [[k r1]|] eqn:Q; [|discriminate]. intros H. injection H as <- <-.
      destruct (string_sound _ s k r1 (Nat.le_refl _) Q) as (b & P & ->). exists ([34%N] ++ b ++ [34%N]), (JStr k).
      split; [rewrite <- !app_assoc; reflexivity|]. split; [constructor; exists b; auto|]. split; [exact Logic.I|reflexivity]. }
    destruct (c =? 123)%N eqn:E2.
    { apply N.eqb_eq in E2. subst c. rewrite skip_ws_is. destruct (skip_split s) as (w & B & E). destruct (skip s) as [|c1 r1] eqn:Q; [discriminate|].
      destruct (c1 =? 125)%N eqn:E3.
      - apply N.eqb_eq in E3. subst c1. intros H. injection H as <- <-. exists ([123%N] ++ w ++ [125%N]), (JObj []). rewrite E.
        split; [rewrite <- !app_assoc; reflexivity|]. split; [constructor; exact B|]. split; [exact Logic.I|reflexivity].
      - destruct (c1 =? 34)%N eqn:E4; [|discriminate]. apply N.eqb_eq in E4. subst c1. destruct (scan_members pf n r1 []) as [[d r2]|] eqn:M; [|discriminate].
        intros H. injection H as <- <-. destruct (IH3 _ _ _ _ M) as (t & kvs & E5 & P & Sh & ->). exists ([123%N] ++ (w ++ t) ++ [125%N]), (JObj kvs).
        rewrite E, E5. split; [rewrite <- !app_assoc; reflexivity|]. split; [|split; [exact Sh|reflexivity]]. constructor.
        destruct P as [w1 w2 m k t v B1 B2 S1 S2|w1 w2 m k t v u kvs B1 B2 S1 S2 R].
        + rewrite app_assoc. apply pm_one; auto. intros x Hx. apply in_app_or in Hx. destruct Hx as [Hx|Hx]; auto.
        + rewrite app_assoc. apply pm_more; auto. intros x Hx. apply in_app_or in Hx. destruct Hx as [Hx|Hx]; auto. }
    destruct (c =? 91)%N eqn:E3.
    { apply N.eqb_eq in E3. subst c. rewrite skip_ws_is. destruct (skip_split s) as (w & B & E). destruct (skip s) as [|c1 r1] eqn:Q; [discriminate|].
      destruct (c1 =? 93)%N eqn:E4.
      - apply N.eqb_eq in E4. subst c1. intros H. injection H as <- <-. exists ([91%N] ++ w ++ [93%N]), (JArr []). rewrite E.
        split; [rewrite <- !app_assoc; reflexivity|]. split; [constructor; exact B|]. split; [exact Logic.I|reflexivity].
      - destruct (scan_items pf n (c1 :: r1)) as [[d r2]|] eqn:M; [|discriminate].
        intros H. injection H as <- <-. destruct (IH2 _ _ _ M) as (t & kvs & E5 & P & Sh & ->). exists ([91%N] ++ (w ++ t) ++ [93%N]), (JArr kvs).
        rewrite E, E5. split; [rewrite <- !app_assoc; reflexivity|]. split; [|split; [exact Sh|reflexivity]]. constructor.
        destruct P as [t v S|t v u vs S R]; [apply pi_one, pad_left; assumption|].
        rewrite app_assoc. apply pi_more; [apply pad_left; assumption|exact R]. }
    clear E1 E2 E3. set (s0 := c :: s). clearbody s0. clear c s. intros H.
    assert (K : forall w u j, after w u s0 = Some (v, r) -> py_says w j -> short j -> u = value pf j -> exists t j, s0 = t ++ r /\ py_says t j /\ short j /\ v = value pf j).
    { intros w u j A P Sh ->. apply after_is in A. cbn [fst snd] in A. destruct A as [-> ->]. exists w, j. auto. }
    destruct (startswith (lit "null") s0); [exact (K _ _ JNull H py_null Logic.I eq_refl)|].
    destruct (startswith (lit "true") s0); [exact (K _ _ (JBool true) H py_true Logic.I eq_refl)|].
    destruct (startswith (lit "false") s0); [exact (K _ _ (JBool false) H py_false Logic.I eq_refl)|].
    destruct (scan_number pf s0) as [o|] eqn:Nm; [subst o; exact (number_sound pf s0 v r Nm)|].
    destruct (startswith (lit "NaN") s0); [exact (K _ _ (JFloat (lit "NaN")) H (py_special _ (or_introl eq_refl)) Logic.I eq_refl)|].
    destruct (startswith (lit "Infinity") s0); [exact (K _ _ (JFloat (lit "Infinity")) H (py_special _ (or_intror (or_introl eq_refl))) Logic.I eq_refl)|].
    exact (K _ _ (JFloat (lit "-Infinity")) H (py_special _ (or_intror (or_intror eq_refl))) Logic.I eq_refl).
  - intros s l r. cbn [scan_items]. destruct (scan_once pf n s) as [[v r0]|] eqn:Q; [|discriminate]. destruct (IH1 _ _ _ Q) as (t & j & -> & P & Sh & ->).
    rewrite skip_ws_is. destruct (skip_split r0) as (w & B & E). destruct (skip r0) as [|c r1] eqn:K; [discriminate|].
    destruct (c =? 93)%N eqn:E1.
    + apply N.eqb_eq in E1. subst c. intros H. injection H as <- <-. exists (t ++ w), [j]. rewrite E. split; [rewrite <- !app_assoc; reflexivity|].
      split; [apply pi_one, pad_right; assumption|]. split; [split; [exact Sh|exact Logic.I]|reflexivity].
    + destruct (c =? 44)%N eqn:E2; [|discriminate]. apply N.eqb_eq in E2. subst c. rewrite skip_ws_is.
      destruct (scan_items pf n (skip r1)) as [[l2 r2]|] eqn:M; [|discriminate]. intros H. injection H as <- <-.
      destruct (IH2 _ _ _ M) as (u & js & E5 & R & Sh2 & ->). destruct (skip_split r1) as (w1 & B1 & F).
      exists ((t ++ w) ++ [44%N] ++ (w1 ++ u)), (j :: js). rewrite E, F, E5. split; [rewrite <- !app_assoc; reflexivity|].
      split; [|split; [split; assumption|reflexivity]]. apply pi_more; [apply pad_right; assumption|].
      destruct R as [u v S|u v u2 vs S R]; [apply pi_one, pad_left; assumption|]. rewrite app_assoc. apply pi_more; [apply pad_left; assumption|exact R].
  - intros s d0 d r. cbn [scan_members]. destruct (scanstring s) as [[k r0]|] eqn:Q; [|discriminate].
    destruct (string_sound _ s k r0 (Nat.le_refl _) Q) as (b & P & ->). assert (Sk : py_string ([34%N] ++ b ++ [34%N]) k) by (exists b; auto).
    rewrite skip_ws_is. destruct (skip_split r0) as (w & B & E). destruct (skip r0) as [|c r1] eqn:K; [discriminate|].
    destruct (c =? 58)%N eqn:E1; [|discriminate]. apply N.eqb_eq in E1. subst c. rewrite skip_ws_is. destruct (skip_split r1) as (w1 & B1 & E1).
    destruct (scan_once pf n (skip r1)) as [[v r2]|] eqn:Qv; [|discriminate]. destruct (IH1 _ _ _ Qv) as (t & j & Et & Pj & Sh & ->).
    rewrite skip_ws_is. destruct (skip_split r2) as (w2 & B2 & E2). destruct (skip r2) as [|c2 r3] eqn:K2; [discriminate|].
    assert (B0 : blank []) by (intros x []).
    destruct (c2 =? 125)%N eqn:E3.
    + apply N.eqb_eq in E3. subst c2. intros H. injection H as <- <-. exists ([] ++ ([34%N] ++ b ++ [34%N]) ++ w ++ [58%N] ++ (w1 ++ t ++ w2)), [(k, j)].
      split; [rewrite E, E1, Et, E2; rewrite <- !app_assoc; reflexivity|]. split; [|split; [split; [exact Sh|exact Logic.I]|reflexivity]].
      apply pm_one; auto. apply py_blank; assumption.
    + destruct (c2 =? 44)%N eqn:E4; [|discriminate]. apply N.eqb_eq in E4. subst c2. rewrite skip_ws_is. destruct (skip_split r3) as (w3 & B3 & E3').
      destruct (skip r3) as [|c3 r4] eqn:K3; [discriminate|]. destruct (c3 =? 34)%N eqn:E5; [|discriminate]. apply N.eqb_eq in E5. subst c3.
      intros M. destruct (IH3 _ _ _ _ M) as (u & kvs & Eu & R & Sh2 & ->).
      exists ([] ++ ([34%N] ++ b ++ [34%N]) ++ w ++ [58%N] ++ (w1 ++ t ++ w2) ++ [44%N] ++ (w3 ++ u)), ((k, j) :: kvs).
      split; [rewrite E, E1, Et, E2, E3', Eu; rewrite <- !app_assoc; reflexivity|]. split; [|split; [split; assumption|reflexivity]].
      apply pm_more; auto; [apply py_blank; assumption|].
      destruct R as [v1 v2 m k2 t2 j2 V1 V2 S1 S2|v1 v2 m k2 t2 j2 u2 kvs V1 V2 S1 S2 R].
      * rewrite app_assoc. apply pm_one; auto. intros x Hx. apply in_app_or in Hx. destruct Hx as [Hx|Hx]; auto.
      * rewrite app_assoc. apply pm_more; auto. intros x Hx. apply in_app_or in Hx. destruct Hx as [Hx|Hx]; auto.
Qed.

(** how a value begins *)
Definition opens (t : str) : Prop := match t with c :: _ => blankb c = false /\ c <> 93%N /\ c <> 125%N | [] => False end.
Lemma number_scanned pf n t o : number_start t -> scan_number pf t = Some o -> scan_once pf (Datatypes.S n) t = o.
Proof.
  destruct t as [|c t]; [contradiction|]. cbn [number_start]. intros H E. cbn [scan_once].
  assert (Hc : (c =? 34)%N = false /\ (c =? 123)%N = false /\ (c =? 91)%N = false) by (revert H; unfold is_digit; lia). destruct Hc as (-> & -> & ->).
  assert (K : forall a w, is_alpha a = true -> startswith (a :: w) (c :: t) = false).
  { intros a w A. cbn [startswith]. destruct (a =? c)%N eqn:Q; [|reflexivity]. apply N.eqb_eq in Q. subst c. exfalso.
    revert A H. unfold is_alpha, is_lower, is_upper, is_digit. lia. }
  unfold lit. cbn [String.list_ascii_of_string map]. rewrite !K by reflexivity. rewrite E. reflexivity.
Qed.
Lemma number_opens t r : number_start t -> opens (skip (t ++ r)).
Proof. exact (number_begins t r). Qed.
Lemma py_opens t v : py_says t v -> forall r, opens (skip (t ++ r)).
Proof.
  induction 1 as [| | | ds W| ds W| t F| t H|t s (b & _ & ->)| w B| t vs Q| w B| t kvs M| w1 w2 t v B1 B2 S IH]; intros r;
    try (cbn; repeat split; congruence).
  - apply number_opens, whole_number, W.
  - apply number_opens, float_number, F.
  - destruct H as [-> |[-> | ->]]; cbn; repeat split; congruence.
  - rewrite <- !app_assoc, (skip_blank w1 _ B1). apply IH.
Qed.
Lemma py_items_open t vs : py_items t vs -> forall r, opens (skip (t ++ r)).
Proof. destruct 1 as [t v S|t v u vs S _]; intros r; [|rewrite <- app_assoc]; apply (py_opens _ _ S). Qed.
Lemma py_members_open t kvs : py_members t kvs -> forall r, exists u, skip (t ++ r) = 34%N :: u.
Proof.
  destruct 1 as [w1 w2 n k t v B1 B2 (b & _ & ->) _|w1 w2 n k t v u kvs B1 B2 (b & _ & ->) _ _]; intros r;
    rewrite <- !app_assoc, (skip_blank w1 _ B1); eexists; reflexivity.
Qed.
Lemma opens_skip t : opens t -> skip t = t.
Proof. destruct t as [|c t]; [contradiction|]. intros (H & _). exact (skip_solid c t H). Qed.

Lemma scan_complete pf :
  (forall t j, py_says t j -> short j -> forall r, follow r -> forall n, 2 * List.length t <= n ->
     exists r', scan_once pf n (skip (t ++ r)) = Some (value pf j, r') /\ skip r' = skip r) /\
  (forall t js, py_items t js -> all_short (fun x => x) js -> forall r n, 2 * List.length t + 1 <= n ->
     scan_items pf n (skip (t ++ [93%N] ++ r)) = Some (map (value pf) js, r)) /\
  (forall t kvs, py_members t kvs -> all_short snd kvs -> forall r d n, 2 * List.length t + 1 <= n ->
     exists u, skip (t ++ [125%N] ++ r) = 34%N :: u /\ scan_members pf n u d = Some (dict_of (member_values pf kvs) d, r)).
Proof.
  assert (NUM : forall t v r, number_start t -> scan_number pf (t ++ r) = Some (Some (v, r)) -> forall n, 2 * List.length t <= n ->
    exists r', scan_once pf n (skip (t ++ r)) = Some (v, r') /\ skip r' = skip r).
  { intros t v r St E n L. exists r. split; [|reflexivity]. rewrite (opens_skip (t ++ r)).
    - destruct n as [|n]; [destruct t; [contradiction|cbn in L; lia]|]. apply number_scanned; [|exact E]. destruct t; [contradiction|exact St].
    - pose proof (number_opens t r St) as O. destruct t as [|c t]; [contradiction|]. cbn [app skip number_start] in *.
      destruct (blankb c) eqn:K; [revert K St; unfold blankb, is_digit; lia|exact O]. }
  apply py_all.
  - intros _ r _ n L. cbn in L. destruct n as [|n]; [lia|]. exists r. split; reflexivity.
  - intros _ r _ n L. cbn in L. destruct n as [|n]; [lia|]. exists r. split; reflexivity.
  - intros _ r _ n L. cbn in L. destruct n as [|n]; [lia|]. exists r. split; reflexivity.
  - intros ds W Sh r Fo n L. apply NUM; [apply whole_number, W| |exact L]. apply (int_complete pf [] ds r); [left; reflexivity|exact W| |exact Fo].
    cbn [short] in Sh. lia.
  - intros ds W Sh r Fo n L. apply NUM; [exact (or_intror eq_refl)| |exact L]. rewrite <- app_assoc.
    apply (int_complete pf (lit "-") ds r); [right; reflexivity|exact W| |exact Fo]. cbn [short] in Sh. lia.
  - intros t F _ r Fo n L. apply NUM; [apply float_number, F| |exact L]. exact (float_complete pf t r F Fo).
  - intros t H _ r _ n L. destruct H as [-> |[-> | ->]]; cbn in L; (destruct n as [|n]; [lia|]); exists r; split; reflexivity.
  - intros t s (b & P & ->) _ r _ n L. destruct n as [|n]; [cbn in L; lia|]. exists r. split; [|reflexivity]. rewrite <- !app_assoc. cbn [app].
    rewrite (skip_solid 34%N _ eq_refl). cbn [scan_once]. change (34 =? 34)%N with true. cbv iota. pose proof (string_complete b s P r) as E. cbn [app] in E.
    rewrite E. reflexivity.
  - intros w B _ r _ n L. destruct n as [|n]; [cbn in L; lia|]. exists r. split; [|reflexivity]. rewrite <- !app_assoc. cbn [app].
    rewrite (skip_solid 91%N _ eq_refl). cbn [scan_once]. change (91 =? 34)%N with false. change (91 =? 123)%N with false. change (91 =? 91)%N with true. cbv iota.
    rewrite skip_ws_is, (skip_blank w _ B). reflexivity.
  - intros t vs Q IH Sh r _ n L. destruct n as [|n]; [cbn in L; lia|]. exists r. split; [|reflexivity]. rewrite <- !app_assoc. cbn [app].
    rewrite (skip_solid 91%N _ eq_refl). cbn [scan_once]. change (91 =? 34)%N with false. change (91 =? 123)%N with false. change (91 =? 91)%N with true. cbv iota.
    rewrite skip_ws_is. specialize (IH Sh r n). rewrite !app_length in L. cbn [List.length] in L. specialize (IH ltac:(lia)). cbn [app] in IH.
    pose proof (py_items_open t vs Q (93%N :: r)) as O. destruct (skip (t ++ 93%N :: r)) as [|c u]; [contradiction|]. cbn in O. destruct O as (_ & O & _).
    destruct (c =? 93)%N eqn:E; [lia|]. rewrite IH. reflexivity.
  - intros w B _ r _ n L. destruct n as [|n]; [cbn in L; lia|]. exists r. split; [|reflexivity]. rewrite <- !app_assoc. cbn [app].
    rewrite (skip_solid 123%N _ eq_refl). cbn [scan_once]. change (123 =? 34)%N with false. change (123 =? 123)%N with true. cbv iota.
    rewrite skip_ws_is, (skip_blank w _ B). reflexivity.
  - intros t kvs Q IH Sh r _ n L. destruct n as [|n]; [cbn in L; lia|]. exists r. split; [|reflexivity]. rewrite <- !app_assoc. cbn [app].
    rewrite (skip_solid 123%N _ eq_refl). cbn [scan_once]. change (123 =? 34)%N with false. change (123 =? 123)%N with true. cbv iota.
    rewrite skip_ws_is. rewrite !app_length in L. cbn [List.length] in L. destruct (IH Sh r [] n ltac:(lia)) as (u & E & M). cbn [app] in E. rewrite E, M. reflexivity.
  - intros w1 w2 t v B1 B2 P IH Sh r Fo n L. rewrite !app_length in L. destruct (IH Sh (w2 ++ r) (follow_blank w2 r B2 Fo) n ltac:(lia)) as (r' & E & K).
    exists r'. rewrite <- !app_assoc, (skip_blank w1 _ B1), E, K, (skip_blank w2 r B2). split; reflexivity.
  - intros t v P IH (Sh & _) r n L. destruct n as [|n]; [lia|]. cbn [scan_items].
    destruct (IH Sh ([93%N] ++ r) (or_intror (or_intror (or_introl eq_refl))) n ltac:(lia)) as (r' & E & K). rewrite E, skip_ws_is, K. reflexivity.
  - intros t v u vs P IH1 _ IH2 (Sh & Sh2) r n L. rewrite !app_length in L. cbn [List.length] in L. destruct n as [|n]; [lia|]. cbn [scan_items]. rewrite <- !app_assoc.
    destruct (IH1 Sh ([44%N] ++ u ++ [93%N] ++ r) (or_intror (or_introl eq_refl)) n ltac:(lia)) as (r' & E & K). rewrite E, skip_ws_is, K.
    cbn [app]. rewrite (skip_solid 44%N _ eq_refl). change (44 =? 93)%N with false. change (44 =? 44)%N with true. cbv iota. rewrite skip_ws_is.
    specialize (IH2 Sh2 r n ltac:(lia)). cbn [app] in IH2. rewrite IH2. reflexivity.
  - intros w1 w2 m k t v B1 B2 (b & P & ->) S IH (Sh & _) r d n L. rewrite !app_length in L. cbn [List.length] in L. rewrite <- !app_assoc, (skip_blank w1 _ B1). eexists. split; [reflexivity|].
    destruct n as [|n]; [lia|]. cbn [scan_members]. pose proof (string_complete b k P (w2 ++ [58%N] ++ t ++ [125%N] ++ r)) as E. cbn [app] in *. rewrite E.
    rewrite skip_ws_is, (skip_blank w2 _ B2), (skip_solid 58%N _ eq_refl). change (58 =? 58)%N with true. cbv iota. rewrite skip_ws_is.
    destruct (IH Sh ([125%N] ++ r) (or_intror (or_intror (or_intror eq_refl))) n ltac:(lia)) as (r' & E2 & K). cbn [app] in *. rewrite E2, skip_ws_is, K. reflexivity.
  - intros w1 w2 m k t v u kvs B1 B2 (b & P & ->) S IH _ IH2 (Sh & Sh2) r d n L. rewrite !app_length in L. cbn [List.length] in L. rewrite <- !app_assoc, (skip_blank w1 _ B1). eexists. split; [reflexivity|].
    destruct n as [|n]; [lia|]. cbn [scan_members]. pose proof (string_complete b k P (w2 ++ [58%N] ++ t ++ [44%N] ++ u ++ [125%N] ++ r)) as E. cbn [app] in *. rewrite E.
    rewrite skip_ws_is, (skip_blank w2 _ B2), (skip_solid 58%N _ eq_refl). change (58 =? 58)%N with true. cbv iota. rewrite skip_ws_is.
    destruct (IH Sh ([44%N] ++ u ++ [125%N] ++ r) (or_intror (or_introl eq_refl)) n ltac:(lia)) as (r' & E2 & K). cbn [app] in *. rewrite E2, skip_ws_is, K.
    rewrite (skip_solid 44%N _ eq_refl). change (44 =? 125)%N with false. change (44 =? 44)%N with true. cbv iota. rewrite skip_ws_is.
    destruct (IH2 Sh2 r (dset d (KS k) (value pf v)) n ltac:(lia)) as (u' & E3 & M). cbn [app] in E3. rewrite E3. change (34 =? 34)%N with true. cbv iota. rewrite M. reflexivity.
Qed.

(** what is read *)
Theorem C106_loads pf t v : loads pf t = Ok v <-> exists j, py_says t j /\ short j /\ v = value pf j.
Proof.
  unfold loads. rewrite skip_ws_is. split.
  - destruct (startswith [65279%N] t); [discriminate|]. destruct (scan_once pf (Datatypes.S (2 * List.length t)) (skip t)) as [[v' r]|] eqn:E; [|discriminate].
    rewrite skip_ws_is. destruct (skip r) as [|c u] eqn:K; [|discriminate]. intros H. injection H as ->.
    destruct (proj1 (scan_sound pf _) _ _ _ E) as (t' & j & E1 & P & Sh & ->). exists j. split; [|split; [exact Sh|reflexivity]].
    destruct (skip_split t) as (w & B & ->). rewrite E1. destruct (skip_split r) as (w2 & B2 & E2). rewrite K, app_nil_r in E2. subst r. apply py_blank; assumption.
  - intros (j & P & Sh & ->). pose proof (py_opens t j P []) as O. rewrite app_nil_r in O.
    destruct (startswith [65279%N] t) eqn:S.
    { exfalso. apply startswith_app in S. destruct S as (u & ->). clear - P. cbn [app] in P.
      assert (Q : forall s, py_says s j -> forall u, s <> 65279%N :: u); [|exact (Q _ P u eq_refl)].
      clear. induction 1 as [| | | ds W| ds W| t F| t H|t s (b & _ & ->)| w B| t vs Q| w B| t kvs M| w1 w2 t v B1 B2 S IH]; intros u E; try discriminate E.
      - destruct (whole_first ds W) as (c & r & -> & D). injection E as -> _. discriminate D.
      - destruct (float_number t F) as (N1 & _). subst t. destruct N1 as [N1|N1]; discriminate N1.
      - destruct H as [-> |[-> | ->]]; discriminate E.
      - destruct w1 as [|c w1]; [|injection E as -> _; specialize (B1 _ (or_introl eq_refl)); lia]. cbn [app] in E. destruct t as [|c t]; [|injection E as -> _; exact (IH t eq_refl)].
        cbn [app] in E. pose proof (py_opens [] v S []) as O. exact O. }
    destruct (proj1 (scan_complete pf) t j P Sh [] Logic.I (Datatypes.S (2 * List.length t)) ltac:(lia)) as (r' & E & K). rewrite app_nil_r in E. rewrite E, skip_ws_is, K. reflexivity.
Qed.
(** every JSON text of RFC 8259 is read *)
Theorem C106_rfc pf t j : says t j -> short j -> loads pf t = Ok (value pf j).
Proof. intros S Sh. apply C106_loads. exists j. split; [exact (proj1 rfc_py t j S)|split; [exact Sh|reflexivity]]. Qed.
(** what the JSON output holds is read back from it *)
Theorem C106_round pf indent v : finite v -> short (holds v) -> loads pf (dumps indent 0 v) = Ok (value pf (holds v)).
Proof. intros F Sh. apply C106_rfc; [|exact Sh]. apply C103_reads; [exact F|reflexivity]. Qed.
(** the members of an object: of several of one name, the last *)
Lemma dict_of_app a b d : dict_of (a ++ b) d = dict_of b (dict_of a d).
Proof. unfold dict_of. apply fold_left_app. Qed.
Lemma dict_of_other l k : ~ In k (map fst l) -> forall d, dget (dict_of l d) (KS k) = dget d (KS k).
Proof.
  induction l as [|[k' v] l IH]; intros H d; [reflexivity|]. rewrite dict_of_cons, IH; [|intros I; apply H; right; exact I].
  apply dget_dset_ne. intros E. injection E as ->. apply H. left. reflexivity.
Qed.
Lemma dict_of_keys l : forall d x, dget (dict_of l d) x <> None -> dget d x <> None \/ exists k, x = KS k /\ In k (map fst l).
Proof.
  induction l as [|[k v] l IH]; intros d x H; [left; exact H|]. rewrite dict_of_cons in H. apply IH in H. destruct H as [H|(k' & -> & H)].
  - destruct (key_eqb x (KS k)) eqn:E.
    + right. exists k. split; [|left; reflexivity]. destruct x as [s|s]; cbn in E; [|discriminate]. apply str_eqb_eq in E. congruence.
    + left. rewrite dget_dset_ne in H; [exact H|]. intros ->. rewrite key_eqb_refl in E. discriminate.
  - right. exists k'. split; [reflexivity|right; exact H].
Qed.
Lemma dict_of_nodup l : forall d : dict, NoDup (dkeys d) -> NoDup (dkeys (dict_of l d)).
Proof. induction l as [|[k v] l IH]; intros d H; [exact H|]. rewrite dict_of_cons. apply IH. apply dset_NoDup. exact H. Qed.
Theorem C106_members pf kvs : exists d : dict, value pf (JObj kvs) = VDict d /\ NoDup (dkeys d) /\
  (forall before k j later, kvs = before ++ (k, j) :: later -> ~ In k (map fst later) -> dget d (KS k) = Some (value pf j)) /\
  (forall x, dget d x <> None -> exists k, x = KS k /\ In k (map fst kvs)).
Proof.
  exists (dict_of (member_values pf kvs) []). split; [reflexivity|]. split; [apply dict_of_nodup; constructor|].
  assert (M : forall l, map fst (member_values pf l) = map fst l) by (intros l; unfold member_values; rewrite map_map; reflexivity). split.
  - intros before k j later -> H. unfold member_values. rewrite map_app, dict_of_app. cbn [map fst snd]. rewrite dict_of_cons, dict_of_other; [apply dget_dset_eq|].
    fold (member_values pf later). rewrite M. exact H.
  - intros x H. apply dict_of_keys in H. rewrite M in H. destruct H as [H|H]; [cbn in H; congruence|exact H].
Qed.

(** * Ends of lines *)
Section Rewriting.
  Variable X : str -> str -> Prop.
  Hypothesis Xapp : forall a b s, X (a ++ b) s -> exists a' b', s = a' ++ b' /\ X a a' /\ X b b'.
  Hypothesis Xblank : forall w w', blank w -> X w w' -> blank w'.
  Hypothesis Xsolid : forall a a', (forall c, In c a -> (32 <= c)%N) -> X a a' -> a' = a.
  Lemma X_one c s : (32 <= c)%N -> X [c] s -> s = [c].
  Proof. intros H. apply Xsolid. intros x [<- |[]]. exact H. Qed.
  Lemma rewriting : (forall t j, py_says t j -> forall t', X t t' -> py_says t' j) /\ (forall t js, py_items t js -> forall t', X t t' -> py_items t' js) /\
    (forall t kvs, py_members t kvs -> forall t', X t t' -> py_members t' kvs).
  Proof.
    assert (HEX : forall c v, hex_digit c v -> (32 <= c)%N) by (unfold hex_digit; lia).
    assert (STR : forall b k, py_chars b k -> forall c, In c b -> (32 <= c)%N).
    { assert (F4 : forall t v, hex_four t v -> forall c, In c t -> (32 <= c)%N).
      { intros t v (a & b & c & d & x & y & z & w & -> & A & B & C & D & _) e He. cbn in He. destruct He as [<- |[<- |[<- |[<- |[]]]]]; eauto. }
      induction 1 as [|c b s H1 H2 H3 _ IH|e c b s He _ IH|t v b s Ht Hn P IH|t hi u lo b s Ht Hu Hh Hl _ IH]; intros x Hx.
      - destruct Hx.
      - destruct Hx as [<- |Hx]; [exact H1|exact (IH x Hx)].
      - destruct Hx as [<- |[<- |Hx]]; [lia| |exact (IH x Hx)]. cbn in He. repeat (destruct He as [He|He]; [injection He as <- _; lia|]). destruct He.
      - cbn [app] in Hx. destruct Hx as [<- |[<- |Hx]]; [lia|lia|]. apply in_app_or in Hx. destruct Hx as [Hx|Hx]; [exact (F4 _ _ Ht x Hx)|exact (IH x Hx)].
      - cbn [app] in Hx. destruct Hx as [<- |[<- |Hx]]; [lia|lia|]. apply in_app_or in Hx. destruct Hx as [Hx|Hx]; [exact (F4 _ _ Ht x Hx)|].
        destruct Hx as [<- |[<- |Hx]]; [lia|lia|]. apply in_app_or in Hx. destruct Hx as [Hx|Hx]; [exact (F4 _ _ Hu x Hx)|exact (IH x Hx)]. }
    assert (STR2 : forall n k n', py_string n k -> X n n' -> n' = n).
    { intros n k n' (b & P & ->) H. apply (Xsolid _ _) in H; [exact H|]. intros c Hc. apply in_app_or in Hc. destruct Hc as [[<- |[]]|Hc]; [lia|].
      apply in_app_or in Hc. destruct Hc as [Hc|[<- |[]]]; [exact (STR b k P c Hc)|lia]. }
    assert (NUM : forall t, Forall (fun c => num_char c = true) t -> forall c, In c t -> (32 <= c)%N)
      by (intros t F c Hc; rewrite Forall_forall in F; exact (num_visible c (F c Hc))).
    apply py_all.
    - intros t' H. apply Xsolid in H; [subst t'; constructor|]. intros c Hc. cbn in Hc. lia.
    - intros t' H. apply Xsolid in H; [subst t'; constructor|]. intros c Hc. cbn in Hc. lia.
    - intros t' H. apply Xsolid in H; [subst t'; constructor|]. intros c Hc. cbn in Hc. lia.
    - intros ds W t' H. apply Xsolid in H; [subst t'; constructor; exact W|]. apply NUM, whole_number, W.
    - intros ds W t' H. apply Xsolid in H; [subst t'; constructor; exact W|]. apply NUM, minus_number, W.
    - intros t F t' H. apply Xsolid in H; [subst t'; constructor; exact F|]. apply NUM, float_number, F.
    - intros t F t' H. apply Xsolid in H; [subst t'; apply py_special; exact F|]. intros c Hc. destruct F as [-> |[-> | ->]]; cbn in Hc; lia.
    - intros t s P t' H. rewrite (STR2 t s t' P H). constructor. exact P.
    - intros w B t' H. apply Xapp in H. destruct H as (a & b & -> & Ha & Hb). apply Xapp in Hb. destruct Hb as (b1 & b2 & -> & Hb1 & Hb2).
      apply X_one in Ha, Hb2; [|lia|lia]. subst. constructor. exact (Xblank _ _ B Hb1).
    - intros t vs Q IH t' H. apply Xapp in H. destruct H as (a & b & -> & Ha & Hb). apply Xapp in Hb. destruct Hb as (b1 & b2 & -> & Hb1 & Hb2).
      apply X_one in Ha, Hb2; [|lia|lia]. subst. constructor. exact (IH _ Hb1).
    - intros w B t' H. apply Xapp in H. destruct H as (a & b & -> & Ha & Hb). apply Xapp in Hb. destruct Hb as (b1 & b2 & -> & Hb1 & Hb2).
      apply X_one in Ha, Hb2; [|lia|lia]. subst. constructor. exact (Xblank _ _ B Hb1).
    - intros t vs Q IH t' H. apply Xapp in H. destruct H as (a & b & -> & Ha & Hb). apply Xapp in Hb. destruct Hb as (b1 & b2 & -> & Hb1 & Hb2).
      apply X_one in Ha, Hb2; [|lia|lia]. subst. constructor. exact (IH _ Hb1).
    - intros w1 w2 t v B1 B2 P IH t' H. apply Xapp in H. destruct H as (a & b & -> & Ha & Hb). apply Xapp in Hb. destruct Hb as (b1 & b2 & -> & Hb1 & Hb2).
      apply py_blank; [exact (Xblank _ _ B1 Ha)|exact (Xblank _ _ B2 Hb2)|exact (IH _ Hb1)].
    - intros t v P IH t' H. apply pi_one, IH, H.
    - intros t v u vs P IH1 R IH2 t' H. apply Xapp in H. destruct H as (a & b & -> & Ha & Hb). apply Xapp in Hb. destruct Hb as (b1 & b2 & -> & Hb1 & Hb2).
      apply X_one in Hb1; [|lia]. subst. apply pi_more; [exact (IH1 _ Ha)|exact (IH2 _ Hb2)].
    - intros w1 w2 m k t v B1 B2 P S IH t' H. apply Xapp in H. destruct H as (a & b & -> & Ha & H). apply Xapp in H. destruct H as (n' & b2 & -> & Hn & H).
      apply Xapp in H. destruct H as (w2' & b3 & -> & Hw & H). apply Xapp in H. destruct H as (c & t2 & -> & Hc & H).
      rewrite (STR2 m k n' P Hn). apply X_one in Hc; [|lia]. subst c. apply pm_one; [exact (Xblank _ _ B1 Ha)|exact (Xblank _ _ B2 Hw)|exact P|exact (IH _ H)].
    - intros w1 w2 m k t v u kvs B1 B2 P S IH R IH2 t' H. apply Xapp in H. destruct H as (a & b & -> & Ha & H). apply Xapp in H. destruct H as (n' & b2 & -> & Hn & H).
      apply Xapp in H. destruct H as (w2' & b3 & -> & Hw & H). apply Xapp in H. destruct H as (c & t2 & -> & Hc & H). apply Xapp in H. destruct H as (t3 & r3 & -> & Ht & H).
      apply Xapp in H. destruct H as (c2 & r4 & -> & Hc2 & H). apply X_one in Hc, Hc2; [|lia|lia]. subst c c2.
      rewrite (STR2 m k n' P Hn). apply pm_more; [exact (Xblank _ _ B1 Ha)|exact (Xblank _ _ B2 Hw)|exact P|exact (IH _ Ht)|exact (IH2 _ H)].
  Qed.
End Rewriting.
(** carriage returns left out or made line feeds *)
Inductive dropped : str -> str -> Prop :=
| dr_nil : dropped [] [] | dr_keep c s s' : c <> 13%N -> dropped s s' -> dropped (c :: s) (c :: s')
| dr_feed s s' : dropped s s' -> dropped (13%N :: s) (10%N :: s') | dr_drop s s' : dropped s s' -> dropped (13%N :: s) s'.
(** line feeds written in another way *)
Inductive ended : str -> str -> Prop :=
| en_nil : ended [] [] | en_keep c s s' : c <> 10%N -> ended s s' -> ended (c :: s) (c :: s')
| en_feed e s s' : e = [10%N] \/ e = [13%N] \/ e = [13; 10]%N -> ended s s' -> ended (10%N :: s) (e ++ s').
Lemma newlines_related n : forall s, List.length s <= n -> dropped s (universal_newlines s) /\ ended (universal_newlines s) s.
Proof.
  induction n as [|n IH]; intros s L; (destruct s as [|c s]; [split; constructor|]); cbn [List.length] in L; [lia|]. cbn [universal_newlines].
  destruct (c =? 13)%N eqn:E.
  - apply N.eqb_eq in E. subst c. destruct s as [|d s]; [split; [repeat constructor|exact (en_feed [13%N] [] [] (or_intror (or_introl eq_refl)) en_nil)]|].
    cbn [List.length] in L. destruct (d =? 10)%N eqn:E2.
    + apply N.eqb_eq in E2. subst d. destruct (IH s ltac:(lia)) as [A B]. split; [apply dr_drop, dr_keep; [discriminate|exact A]|].
      exact (en_feed [13; 10]%N _ _ (or_intror (or_intror eq_refl)) B).
    + destruct (IH (d :: s) ltac:(cbn [List.length]; lia)) as [A B]. split; [apply dr_feed, A|exact (en_feed [13%N] _ _ (or_intror (or_introl eq_refl)) B)].
  - destruct (IH s ltac:(lia)) as [A B]. split; [apply dr_keep; [lia|exact A]|]. destruct (N.eq_dec c 10) as [-> |K]; [exact (en_feed [10%N] _ _ (or_introl eq_refl) B)|].
    apply en_keep; assumption.
Qed.
Lemma says_newlines t j : py_says t j <-> py_says (universal_newlines t) j.
Proof.
  destruct (newlines_related _ t (Nat.le_refl _)) as [A B]. split; intros H.
  - assert (X1 : forall a b s, dropped (a ++ b) s -> exists a' b', s = a' ++ b' /\ dropped a a' /\ dropped b b').
    { induction a as [|c a IH]; intros b s D; [exists [], s; repeat split; [constructor|exact D]|]. cbn [app] in D. inversion D; subst;
        match goal with K : dropped (a ++ b) _ |- _ => destruct (IH _ _ K) as (a' & b' & -> & Ha & Hb) end.
      - exists (c :: a'), b'. repeat split; [constructor; assumption|exact Hb].
      - exists (10%N :: a'), b'. repeat split; [apply dr_feed; assumption|exact Hb].
      - exists a', b'. repeat split; [apply dr_drop; assumption|exact Hb]. }
    assert (X2 : forall w w', blank w -> dropped w w' -> blank w').
    { intros w w' K D. induction D as [|c s s' Hc D IH|s s' D IH|s s' D IH]; [exact K| | |].
      - intros x [<- |Hx]; [apply K; left; reflexivity|]. apply IH; [intros y Hy; apply K; right; exact Hy|exact Hx].
      - intros x [<- |Hx]; [auto|]. apply IH; [intros y Hy; apply K; right; exact Hy|exact Hx].
      - apply IH. intros y Hy. apply K. right. exact Hy. }
    assert (X3 : forall a a', (forall c, In c a -> (32 <= c)%N) -> dropped a a' -> a' = a).
    { intros a a' K D. induction D as [|c s s' Hc D IH|s s' D IH|s s' D IH]; [reflexivity| | |].
      - f_equal. apply IH. intros y Hy. apply K. right. exact Hy.
      - specialize (K 13%N (or_introl eq_refl)). lia.
      - specialize (K 13%N (or_introl eq_refl)). lia. }
    exact (proj1 (rewriting dropped X1 X2 X3) t j H _ A).
  - assert (X1 : forall a b s, ended (a ++ b) s -> exists a' b', s = a' ++ b' /\ ended a a' /\ ended b b').
    { induction a as [|c a IH]; intros b s D; [exists [], s; repeat split; [constructor|exact D]|]. cbn [app] in D. inversion D; subst;
        match goal with K : ended (a ++ b) _ |- _ => destruct (IH _ _ K) as (a' & b' & -> & Ha & Hb) end.
      - exists (c :: a'), b'. repeat split; [constructor; assumption|exact Hb].
      - exists (e ++ a'), b'. rewrite app_assoc. repeat split; [apply en_feed; assumption|exact Hb]. }
    assert (X2 : forall w w', blank w -> ended w w' -> blank w').
    { intros w w' K D. induction D as [|c s s' Hc D IH|e s s' He D IH]; [exact K| |].
      - intros x [<- |Hx]; [apply K; left; reflexivity|]. apply IH; [intros y Hy; apply K; right; exact Hy|exact Hx].
      - intros x Hx. apply in_app_or in Hx. destruct Hx as [Hx|Hx]; [|apply IH; [intros y Hy; apply K; right; exact Hy|exact Hx]].
        destruct He as [-> |[-> | ->]]; cbn in Hx; lia. }
    assert (X3 : forall a a', (forall c, In c a -> (32 <= c)%N) -> ended a a' -> a' = a).
    { intros a a' K D. induction D as [|c s s' Hc D IH|e s s' He D IH]; [reflexivity| |].
      - f_equal. apply IH. intros y Hy. apply K. right. exact Hy.
      - specialize (K 10%N (or_introl eq_refl)). lia. }
    exact (proj1 (rewriting ended X1 X2 X3) _ j H _ B).
Qed.
Lemma loads_err pf t e : loads pf t = Err e -> e = ValueError.
Proof.
  unfold loads. destruct (startswith _ _); [congruence|]. destruct (scan_once _ _ _) as [[v r]|]; [|congruence]. destruct (skip_ws r); congruence.
Qed.
Lemma loads_newlines pf t : loads pf (universal_newlines t) = loads pf t.
Proof.
  destruct (loads pf t) as [v|e] eqn:E.
  - apply C106_loads in E. destruct E as (j & P & Sh & ->). apply C106_loads. exists j. split; [apply (proj1 (says_newlines t j)), P|auto].
  - rewrite (loads_err pf t e E). destruct (loads pf (universal_newlines t)) as [v|e2] eqn:E2; [|rewrite (loads_err _ _ _ E2); reflexivity].
    exfalso. apply C106_loads in E2. destruct E2 as (j & P & Sh & ->). apply says_newlines in P.
    assert (K : loads pf t = Ok (value pf j)) by (apply C106_loads; exists j; auto). congruence.
Qed.

(** * Configurations *)
Definition named (ext filepath : str) : Prop := exists stem, filepath = stem ++ ext.
Definition unnamed (filepath : str) : Prop := ~ named (lit ".json") filepath /\ ~ named (lit ".yaml") filepath /\ ~ named (lit ".yml") filepath.
(** a JSON text is not the name of a configuration file *)
Lemma last_cases (t stem ext : str) (x : N) : t ++ [x] = stem ++ ext -> ext <> [] -> exists u, ext = u ++ [x].
Proof.
  intros E Hn. destruct (exists_last Hn) as (u & y & ->). rewrite app_assoc in E. apply app_inj_tail in E. destruct E as [_ ->]. exists u. reflexivity.
Qed.
Lemma json_unnamed t j : py_says t j -> forall ext, ext = lit ".json" \/ ext = lit ".yaml" \/ ext = lit ".yml" -> ~ named ext t.
Proof.
  assert (LAST : forall ext, ext = lit ".json" \/ ext = lit ".yaml" \/ ext = lit ".yml" -> forall c t, c <> 110%N -> c <> 108%N -> ~ named ext (t ++ [c])).
  { intros ext H c u H1 H2 (stem & E). apply last_cases in E; [|destruct H as [-> |[-> | ->]]; discriminate]. destruct E as (v & E).
    assert (K : last ext 0%N = c) by (rewrite E; apply last_last). destruct H as [-> |[-> | ->]]; cbn in K; congruence. }
  assert (DIG : forall ext, ext = lit ".json" \/ ext = lit ".yaml" \/ ext = lit ".yml" -> forall pre ds, digit_text ds -> ~ named ext (pre ++ ds)).
  { intros ext H pre ds (Hn & F). destruct (exists_last Hn) as (u & c & ->). rewrite app_assoc. apply Forall_app in F. destruct F as [_ F]. inversion F; subst.
    apply LAST; [exact H| |]; intros ->; discriminate. }
  intros P ext H. revert H. induction P as [| | | ds W| ds W| t F| t K|t s (b & _ & ->)| w B| t vs Q| w B| t kvs M| w1 w2 t v B1 B2 S IH]; intros H.
  - intros (stem & E). assert (K : List.length (lit "null") = List.length stem + List.length ext) by (rewrite E, app_length; reflexivity).
    destruct H as [-> |[-> | ->]]; cbn in K; try lia. destruct stem as [|c [|d stem]]; cbn in K; try lia. discriminate E.
  - apply (LAST ext H 101%N (lit "tru")); discriminate.
  - apply (LAST ext H 101%N (lit "fals")); discriminate.
  - apply (DIG ext H []). exact (proj1 W).
  - apply (DIG ext H). exact (proj1 W).
  - destruct F as (m & ds & tail & _ & _ & -> & T). rewrite app_assoc. destruct T as [(d & D & ->)|[(e & s & d & _ & _ & D & ->)|(f & x & _ & (e & s & d & _ & _ & D & ->) & ->)]].
    + change (46%N :: d) with ([46%N] ++ d). rewrite app_assoc. apply DIG; assumption.
    + change (e :: s ++ d) with ((e :: s) ++ d). rewrite app_assoc. apply DIG; assumption.
    + change (e :: s ++ d) with ((e :: s) ++ d). rewrite !app_assoc. apply DIG; assumption.
  - destruct K as [-> |[-> | ->]]; [apply (LAST ext H 78%N (lit "Na"))|apply (LAST ext H 121%N (lit "Infinit"))|apply (LAST ext H 121%N (lit "-Infinit"))]; discriminate.
  - rewrite app_assoc. apply LAST; [exact H|discriminate|discriminate].
  - rewrite app_assoc. apply LAST; [exact H|discriminate|discriminate].
  - rewrite app_assoc. apply LAST; [exact H|discriminate|discriminate].
  - rewrite app_assoc. apply LAST; [exact H|discriminate|discriminate].
  - rewrite app_assoc. apply LAST; [exact H|discriminate|discriminate].
  - destruct w2 as [|c w2].
    + rewrite app_nil_r. intros (stem & E).
      assert (E2 : exists stem', t = stem' ++ ext); [|exact (IH H E2)].
      assert (Hh : exists x r, ext = x :: r /\ forall y, In y ext -> y <> 32%N /\ y <> 9%N /\ y <> 10%N /\ y <> 13%N)
        by (destruct H as [-> |[-> | ->]]; (eexists; eexists; split; [reflexivity|]); intros y Hy; cbn in Hy; lia).
      destruct Hh as (x & r & _ & Hy).
      destruct (app_eq_app _ _ _ _ E) as (l & [(E3 & E4)|(E3 & E4)]); [|exists l; exact E4].
      destruct l as [|y l]; [exists []; rewrite E4; reflexivity|]. exfalso.
      assert (Iw : In y w1) by (rewrite E3; apply in_or_app; right; left; reflexivity). specialize (B1 y Iw).
      assert (Ie : In y ext) by (rewrite E4; left; reflexivity). specialize (Hy y Ie). lia.
    + destruct (exists_last (l := c :: w2) ltac:(discriminate)) as (u & y & E). rewrite E, !app_assoc.
      assert (Iy : In y (c :: w2)) by (rewrite E; apply in_or_app; right; left; reflexivity). specialize (B2 y Iy). apply LAST; [exact H|lia|lia].
Qed.
Lemma named_is ext p : endswith ext p = true <-> named ext p.
Proof. apply endswith_app. Qed.
Lemma unnamed_is p : unnamed p -> endswith (lit ".json") p = false /\ endswith (lit ".yaml") p = false /\ endswith (lit ".yml") p = false.
Proof. intros (A & B & C). repeat split; apply not_true_is_false; intros E; apply named_is in E; auto. Qed.

Section Loading.
  Variables (pf : str -> val) (files : str -> res str) (yaml : option (str -> res val)).
  (** the configuration read under a name *)
  Theorem C106_named p : named (lit ".json") p -> 
    (forall t, files p = Ok t -> load_config_file pf files yaml p = loads pf t) /\ (forall e, files p = Err e -> load_config_file pf files yaml p = Err e).
  Proof.
    intros H. apply named_is in H. unfold load_config_file. rewrite H. split; intros x ->; [exact (loads_newlines pf x)|reflexivity].
  Qed.
  (** a JSON text given instead of a name is read itself *)
  Theorem C106_inline t j : py_says t j -> short j -> unnamed t /\ load_config_file pf files yaml t = Ok (value pf j).
  Proof.
    intros P Sh. pose proof (json_unnamed t j P) as U. assert (U3 : unnamed t) by (repeat split; apply U; auto). split; [exact U3|].
    destruct (unnamed_is t U3) as (A & B & C). unfold load_config_file. rewrite A, B, C. cbn [orb].
    assert (L : loads pf t = Ok (value pf j)) by (apply C106_loads; exists j; auto). rewrite L. reflexivity.
  Qed.
  (** anything else is a configuration error, and nothing else *)
  Theorem C106_errors p : unnamed p -> (exists v, load_config_file pf files yaml p = Ok v /\ loads pf p = Ok v) \/
    (load_config_file pf files yaml p = Err ConfigurationException /\ forall j, short j -> ~ py_says p j).
  Proof.
    intros U. destruct (unnamed_is p U) as (A & B & C). unfold load_config_file. rewrite A, B, C. cbn [orb]. destruct (loads pf p) as [v|e] eqn:L; [left; exists v; auto|].
    right. split; [reflexivity|]. intros j Sh P. assert (K : loads pf p = Ok (value pf j)) by (apply C106_loads; exists j; auto). congruence.
  Qed.
  Theorem C106_no_yaml p : yaml = None -> named (lit ".yaml") p \/ named (lit ".yml") p -> load_config_file pf files yaml p = Err ConfigurationException.
  Proof.
    intros Y H. unfold load_config_file. assert (J : endswith (lit ".json") p = false).
    { apply not_true_is_false. intros E. apply named_is in E. destruct E as (a & ->).
      assert (LL : forall s1 s2 : str, last (s1 ++ s2) 0%N = match s2 with [] => last s1 0%N | _ => last s2 0%N end).
      { intros s1 s2. destruct s2 as [|c s2]; [rewrite app_nil_r; reflexivity|]. destruct (exists_last (l := c :: s2) ltac:(discriminate)) as (u & y & ->).
        rewrite app_assoc, !last_last. destruct u; reflexivity. }
      destruct H as [(b & E)|(b & E)]; assert (K := f_equal (fun l => last l 0%N) E); cbv beta in K; rewrite !LL in K; cbn in K; discriminate K. }
    rewrite J, Y. assert (K : endswith (lit ".yaml") p || endswith (lit ".yml") p = true).
    { apply orb_true_iff. destruct H as [H|H]; [left|right]; apply named_is, H. }
    rewrite K. reflexivity.
  Qed.
  (** so a configuration file can be replaced by its contents, wherever it stands among the configurations *)
  Definition same_config (a b : val) : Prop :=
    a = b \/ exists p t j, a = VStr p /\ named (lit ".json") p /\ files p = Ok t /\ py_says t j /\ short j /\ b = VStr t.
  Theorem C106_replaced default home cwd exists_ (o o' : dict) l l' : dget o k_config = Some (VList l) -> dget o' k_config = Some (VList l') -> Forall2 same_config l l' ->
    dget o k_no_user_config = dget o' k_no_user_config -> dget o k_no_default_config = dget o' k_no_default_config ->
    load_config (config_env pf files yaml default home cwd exists_) o = load_config (config_env pf files yaml default home cwd exists_) o'.
  Proof.
    intros E E' F U D. unfold load_config, all_config_files, user_config_files. rewrite E, E', U, D. set (e := config_env pf files yaml default home cwd exists_).
    assert (T : truthy (VList l) = truthy (VList l')) by (destruct F; reflexivity). rewrite T. destruct (truthy (VList l')); [|reflexivity]. cbn [bind].
    assert (S : forall us, load_files e (us ++ l) = load_files e (us ++ l')); [|rewrite S; reflexivity].
    assert (M : forall us, mapM (env_load e) (us ++ l) = mapM (env_load e) (us ++ l')); [|intros us; unfold load_files; rewrite M; reflexivity].
    clear E E' T U D. induction us as [|u us IH]; [|cbn [app mapM]; rewrite IH; reflexivity]. cbn [app]. induction F as [|a b l l' H F IH]; [reflexivity|].
    cbn [mapM]. rewrite IH. assert (K : env_load e a = env_load e b); [|rewrite K; reflexivity]. destruct H as [-> |(p & t & j & -> & Np & Fp & P & Sh & ->)]; [reflexivity|].
    cbn. destruct (C106_inline t j P Sh) as [_ ->]. rewrite (proj1 (C106_named p Np) t Fp). apply C106_loads. exists j. auto.
  Qed.
End Loading.

(** a file with Windows line ends and a repeated name, and its contents in place of its name *)
Definition config_ex : str := lit "{""type"": ""movie"", ""type"": ""episode""," ++ [13%N; 10%N] ++ lit "  ""expected_title"": [""A\u00e9\ud83d\ude00"", 1e3, -12, null, true]}" ++ [13%N; 10%N].
Definition ex_files (p : str) : res str := if str_eqb p (lit "a.json") then Ok config_ex else Err (OtherError 2).
Definition config_value : val :=
  VDict [(KS (lit "type"), VStr (lit "episode")); (KS (lit "expected_title"), VList [VStr [65; 233; 128512]%N; VFloat 1000; VInt (-12); VNone; VBool true])].
Definition ex_float (t : str) : val := if str_eqb t (lit "1e3") then VFloat 1000 else VNone.
Example C106_nonvacuous : (exists j, py_says config_ex j /\ short j /\ value ex_float j = config_value) /\ named (lit ".json") (lit "a.json") /\
  load_config_file ex_float ex_files None (lit "a.json") = Ok config_value /\ load_config_file ex_float ex_files None config_ex = Ok config_value /\
  load_config_file ex_float ex_files None (lit "b.json") = Err (OtherError 2) /\ load_config_file ex_float ex_files None (lit "a.toml") = Err ConfigurationException.
Proof.
  assert (L : loads ex_float config_ex = Ok config_value) by (vm_compute; reflexivity). pose proof (proj1 (C106_loads _ _ _) L) as (j & P & Sh & E).
  split; [exists j; auto|]. split; [exists (lit "a"); reflexivity|]. split; [rewrite (proj1 (C106_named ex_float ex_files None (lit "a.json") (ex_intro _ (lit "a") eq_refl)) config_ex eq_refl); exact L|].
  split; [rewrite E; apply (C106_inline ex_float ex_files None config_ex j P Sh)|]. split; vm_compute; reflexivity.
Qed.
(** what is not JSON: a trailing comma, a bare word, an apostrophe, a number with a leading zero, a control character *)
Example C106_nonvacuous_errors : Forall (fun t => unnamed t /\ loads ex_float t = Err ValueError)
  [lit "{""a"": 1,}"; lit "type"; lit "{'a': 1}"; lit "[01]"; lit """a" ++ [9%N] ++ lit """"; lit "[1] 2"; lit "config"].
Proof.
  assert (U : forall t, endswith (lit ".json") t || endswith (lit ".yaml") t || endswith (lit ".yml") t = false -> unnamed t).
  { intros t H. apply orb_false_iff in H. destruct H as [H C]. apply orb_false_iff in H. destruct H as [A B]. repeat split; intros K; apply named_is in K; congruence. }
  repeat constructor; try apply U; vm_compute; reflexivity.
Qed.
Print Assumptions C106_loads. Print Assumptions C106_rfc. Print Assumptions C106_round. Print Assumptions C106_members. Print Assumptions C106_named.
Print Assumptions C106_inline. Print Assumptions C106_errors. Print Assumptions C106_no_yaml. Print Assumptions C106_replaced.
