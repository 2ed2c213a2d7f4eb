(** C105: options given as a text *)
From Verif Require Import Py PyFacts Args ArgsProps OptionText Api.
From Coq Require Import Arith ZifyBool.

(** * How a list of words is written in a text, as in a shell *)
Definition blank (c : N) : Prop := c = 32%N \/ c = 9%N \/ c = 10%N \/ c = 13%N.
Definition special (c : N) : Prop := blank c \/ c = 39%N \/ c = 34%N \/ c = 92%N.
(** between double quotes *)
Inductive double : str -> str -> Prop :=
| d_nil : double [] []
| d_plain c t u : c <> 34%N -> c <> 92%N -> double t u -> double (c :: t) (c :: u)
| d_escape c t u : c = 34%N \/ c = 92%N -> double t u -> double (92%N :: c :: t) (c :: u)
| d_keep c t u : c <> 34%N -> c <> 92%N -> double t u -> double (92%N :: c :: t) (92%N :: c :: u).
Inductive piece : str -> str -> Prop :=
| p_bare c : ~ special c -> piece [c] [c]
| p_back c : piece [92%N; c] [c]
| p_single t : ~ In 39%N t -> piece ([39%N] ++ t ++ [39%N]) t
| p_double t u : double t u -> piece ([34%N] ++ t ++ [34%N]) u.
Inductive word_text : str -> str -> Prop :=
| w_one t u : piece t u -> word_text t u
| w_more t u r v : piece t u -> word_text r v -> word_text (t ++ r) (u ++ v).
Definition blanks (t : str) : Prop := Forall blank t.
Inductive words_text : str -> list str -> Prop :=
| ws_none t : blanks t -> words_text t []
| ws_last b t u e : blanks b -> word_text t u -> blanks e -> words_text (b ++ t ++ e) [u]
| ws_cons b t u s r us : blanks b -> word_text t u -> blank s -> words_text r us -> us <> [] -> words_text (b ++ t ++ s :: r) (u :: us).

Lemma blank_is c : sh_blank c = true <-> blank c.
Proof. unfold sh_blank, blank. lia. Qed.
Lemma single_read t r token : ~ In 39%N t -> sh_read (t ++ [39%N] ++ r) (Quoted 39%N token) = sh_read r (Inside (token ++ t) true).
Proof.
  revert token. induction t as [|c t IH]; intros token H; [rewrite app_nil_r; reflexivity|]. cbn [app sh_read].
  replace (c =? 39)%N with false by (symmetry; apply N.eqb_neq; intros ->; apply H; left; reflexivity). change (39 =? 34)%N with false. rewrite andb_false_r.
  change (token ++ c :: t) with (token ++ [c] ++ t). rewrite (app_assoc token [c] t). apply IH. intros I. apply H. right. exact I.
Qed.
Lemma double_read t u r : double t u -> forall token, sh_read (t ++ [34%N] ++ r) (Quoted 34%N token) = sh_read r (Inside (token ++ u) true).
Proof.
  induction 1 as [|c t u H1 H2 D IH|c t u H D IH|c t u H1 H2 D IH]; intros token.
  - rewrite app_nil_r. reflexivity.
  - cbn [app sh_read]. apply N.eqb_neq in H1, H2. rewrite H1, H2. cbn [andb]. pose proof (IH (token ++ [c])) as X; cbn [app] in X; rewrite X, <- app_assoc; reflexivity.
  - cbn [app sh_read]. change (92 =? 34)%N with false. change ((92 =? 92)%N && (34 =? 34)%N) with true. cbv iota.
    replace (negb (c =? 92)%N && negb (c =? 34)%N) with false by lia. pose proof (IH (token ++ [c])) as X; cbn [app] in X; rewrite X, <- app_assoc; reflexivity.
  - cbn [app sh_read]. change (92 =? 34)%N with false. change ((92 =? 92)%N && (34 =? 34)%N) with true. cbv iota.
    replace (negb (c =? 92)%N && negb (c =? 34)%N) with true by lia. pose proof (IH (token ++ [92%N; c])) as X; cbn [app] in X; rewrite X, <- app_assoc; reflexivity.
Qed.
Lemma piece_inside t u : piece t u -> forall r token q, exists q', sh_read (t ++ r) (Inside token q) = sh_read r (Inside (token ++ u) q') /\
  (q = true -> q' = true) /\ (u <> [] \/ q' = true).
Proof.
  intros [c H|c|t' H|t' u' H] r token q.
  - exists q. split; [|split; [auto|left; discriminate]]. cbn [app sh_read]. unfold special, blank in H.
    destruct (sh_blank c) eqn:B; [apply blank_is in B; unfold blank in B; tauto|]. destruct (sh_quote c) eqn:Q; [unfold sh_quote in Q; exfalso; lia|].
    destruct (c =? 92)%N eqn:K; [exfalso; lia|reflexivity].
  - exists q. split; [reflexivity|]. split; [auto|left; discriminate].
  - exists true. split; [|auto]. rewrite <- !app_assoc. exact (single_read t' r token H).
  - exists true. split; [|auto]. rewrite <- !app_assoc. exact (double_read t' u' r H token).
Qed.
Lemma piece_between t u : piece t u -> forall r, exists q', sh_read (t ++ r) Between = sh_read r (Inside u q') /\ (u <> [] \/ q' = true).
Proof.
  intros [c H|c|t' H|t' u' H] r.
  - exists false. split; [|left; discriminate]. cbn [app sh_read]. unfold special, blank in H.
    destruct (sh_blank c) eqn:B; [apply blank_is in B; unfold blank in B; tauto|]. destruct (sh_quote c) eqn:Q; [unfold sh_quote in Q; exfalso; lia|].
    destruct (c =? 92)%N eqn:K; [exfalso; lia|reflexivity].
  - exists false. split; [reflexivity|left; discriminate].
  - exists true. split; [|auto]. rewrite <- !app_assoc. exact (single_read t' r [] H).
  - exists true. split; [|auto]. rewrite <- !app_assoc. exact (double_read t' u' r H []).
Qed.
Lemma word_inside t u : word_text t u -> forall r token q, exists q', sh_read (t ++ r) (Inside token q) = sh_read r (Inside (token ++ u) q') /\ (q = true -> q' = true).
Proof.
  induction 1 as [t u P|t u r0 v P W IH]; intros r token q.
  - destruct (piece_inside t u P r token q) as (q' & E & H & _). eauto.
  - destruct (piece_inside t u P (r0 ++ r) token q) as (q1 & E1 & H1 & _). destruct (IH r (token ++ u) q1) as (q2 & E2 & H2).
    exists q2. rewrite <- app_assoc, E1, E2, <- app_assoc. split; [reflexivity|auto].
Qed.
Lemma word_between t u : word_text t u -> forall r, exists q', sh_read (t ++ r) Between = sh_read r (Inside u q') /\ (u <> [] \/ q' = true).
Proof.
  intros [t' u' P|t' u' r0 v P W] r.
  - exact (piece_between t' u' P r).
  - destruct (piece_between t' u' P (r0 ++ r)) as (q1 & E1 & H1). destruct (word_inside r0 v W r u' q1) as (q2 & E2 & H2).
    exists q2. rewrite <- app_assoc, E1, E2. split; [reflexivity|]. destruct H1 as [H1|H1]; [left; destruct u'; [congruence|discriminate]|right; auto].
Qed.
Lemma blanks_between b r : blanks b -> sh_read (b ++ r) Between = sh_read r Between.
Proof. induction 1 as [|c b H _ IH]; [reflexivity|]. cbn [app sh_read]. rewrite (proj2 (blank_is c) H). exact IH. Qed.
Lemma shown_token (u : str) q : u <> [] \/ q = true -> negb (str_eqb u []) || q = true.
Proof. intros [H| ->]; [|apply orb_true_r]. destruct u; [congruence|reflexivity]. Qed.
(** the words of a text *)
Theorem C105_words text args : words_text text args -> shlex_split text = Ok args.
Proof.
  unfold shlex_split. induction 1 as [t B|b t u e B W E|b t u s r us B W S R IH N].
  - rewrite <- (app_nil_r t), (blanks_between t [] B). reflexivity.
  - rewrite (blanks_between b _ B). destruct (word_between t u W e) as (q & -> & K). apply shown_token in K. destruct E as [|c e Hc E].
    + cbn [sh_read]. rewrite K. reflexivity.
    + cbn [sh_read]. rewrite (proj2 (blank_is c) Hc), K. rewrite <- (app_nil_r e), (blanks_between e [] E). reflexivity.
  - rewrite (blanks_between b _ B). destruct (word_between t u W (s :: r)) as (q & -> & K). apply shown_token in K.
    cbn [sh_read]. rewrite (proj2 (blank_is s) S), K, IH. reflexivity.
Qed.
(** every list of texts can be written so *)
Theorem C105_every args : exists text, words_text text args.
Proof.
  assert (W : forall u, exists t, word_text t u).
  { assert (E : piece ([39%N] ++ [] ++ [39%N]) []) by (constructor; intros []). induction u as [|c u (t & IH)]; [exists ([39%N] ++ [] ++ [39%N]); constructor; exact E|].
    exists ([92%N; c] ++ t). exact (w_more _ [c] _ _ (p_back c) IH). }
  induction args as [|u args (r & IH)]; [exists []; constructor; constructor|]. destruct (W u) as (t & T).
  destruct args as [|u2 args]; [exists ([] ++ t ++ []); apply ws_last; [constructor|exact T|constructor]|].
  exists ([] ++ t ++ 32%N :: r). apply ws_cons; [constructor|exact T|left; reflexivity|exact IH|discriminate].
Qed.
(** options as a text, as a list, and what they say *)
Theorem C105_same text args : words_text text args ->
  parse_options argparse_str argparse_list (VStr text) = parse_options argparse_str argparse_list (VList (map VStr args)) /\
  forall before names after ws1 ws2, args = before ++ names ++ after -> groups before ws1 -> Forall plain names -> groups after ws2 ->
    exists d, parse_options argparse_str argparse_list (VStr text) = Ok d /\ well_read names (ws1 ++ ws2) d.
Proof.
  intros W. assert (E : argparse_str text = parse_args args) by (unfold argparse_str; rewrite (C105_words text args W); reflexivity). split.
  - cbn [parse_options]. rewrite E. cbn [argparse_list]. assert (M : mapM texts (map VStr args) = Ok args).
    { clear. induction args as [|a args IH]; [reflexivity|]. cbn [map mapM texts bind]. rewrite IH. reflexivity. }
    rewrite M. reflexivity.
  - intros before names after ws1 ws2 -> G1 P G2. cbn [parse_options]. rewrite E. exact (C104_options before names after ws1 ws2 G1 P G2).
Qed.
(** a quotation left open is an error *)
Theorem C105_open text args b q rest : words_text text args -> blank b -> q = 39%N \/ q = 34%N -> ~ In q rest -> ~ In 92%N rest ->
  shlex_split (text ++ b :: q :: rest) = Err ValueError.
Proof.
  intros W B Q Nq Nb. unfold shlex_split.
  assert (Q1 : sh_blank q = false /\ (q =? 92)%N = false /\ sh_quote q = true) by (destruct Q as [-> | ->]; repeat split; reflexivity).
  destruct Q1 as (Q1 & Q2 & Q3).
  assert (O : forall token, sh_read rest (Quoted q token) = Err ValueError).
  { clear - Nq Nb. induction rest as [|c rest IH]; intros token; [reflexivity|]. cbn [sh_read].
    replace (c =? q)%N with false by (symmetry; apply N.eqb_neq; intros ->; apply Nq; left; reflexivity).
    replace (c =? 92)%N with false by (symmetry; apply N.eqb_neq; intros ->; apply Nb; left; reflexivity). cbn [andb]. apply IH; intros I; [apply Nq|apply Nb]; right; exact I. }
  assert (O2 : forall e, blanks e -> sh_read (e ++ b :: q :: rest) Between = Err ValueError).
  { intros e E. rewrite (blanks_between e _ E). cbn [sh_read]. rewrite (proj2 (blank_is b) B), Q1, Q2, Q3. apply O. }
  induction W as [t Bt|b0 t u e B0 Wt E|b0 t u s r us B0 Wt S R IH N].
  - exact (O2 t Bt).
  - rewrite <- !app_assoc, (blanks_between b0 _ B0). destruct (word_between t u Wt (e ++ b :: q :: rest)) as (k & -> & K). apply shown_token in K.
    destruct E as [|c e Hc E]; cbn [app sh_read].
    + rewrite (proj2 (blank_is b) B), K, Q1, Q2, Q3, O. reflexivity.
    + rewrite (proj2 (blank_is c) Hc), K, (O2 e E). reflexivity.
  - rewrite <- !app_assoc, (blanks_between b0 _ B0). cbn [app]. destruct (word_between t u Wt (s :: r ++ b :: q :: rest)) as (k & -> & K). apply shown_token in K.
    cbn [sh_read]. rewrite (proj2 (blank_is s) S), K, IH. reflexivity.
Qed.
Example C105_nonvacuous : words_text (lit " -T 'Ocean''s ' ""a\""b""\ c ") [lit "-T"; lit "Oceans "; lit "a""b c"].
Proof.
  apply (ws_cons (lit " ") (lit "-T") (lit "-T") 32%N (lit "'Ocean''s ' ""a\""b""\ c ") [lit "Oceans "; lit "a""b c"]);
    [constructor; [left; reflexivity|constructor]| |left; reflexivity| |discriminate].
  { apply (w_more (lit "-") (lit "-") (lit "T") (lit "T")); [|constructor]; constructor; unfold special, blank; intros H; cbn in H; lia. }
  apply (ws_cons [] (lit "'Ocean''s '") (lit "Oceans ") 32%N (lit """a\""b""\ c ") [lit "a""b c"]); [constructor| |left; reflexivity| |discriminate].
  { apply (w_more (lit "'Ocean'") (lit "Ocean") (lit "'s '") (lit "s ")); [|constructor];
      [apply (p_single (lit "Ocean"))|apply (p_single (lit "s "))]; intros H; cbn in H; lia. }
  apply (ws_last [] (lit """a\""b""\ c") (lit "a""b c") (lit " ")); [constructor| |constructor; [left; reflexivity|constructor]].
  apply (w_more (lit """a\""b""") (lit "a""b") (lit "\ c") (lit " c")).
  { apply (p_double (lit "a\""b") (lit "a""b")). apply d_plain; [discriminate|discriminate|]. apply d_escape; [left; reflexivity|]. apply d_plain; [discriminate|discriminate|constructor]. }
  apply (w_more (lit "\ ") (lit " ") (lit "c") (lit "c")); [constructor|]. constructor. constructor. unfold special, blank. intros H; cbn in H; lia.
Qed.
(** an apostrophe opens a quotation *)
Example C105_nonvacuous_open : shlex_split (lit "-T Ocean's") = Err ValueError /\ shlex_split (lit "-T 's") = Err ValueError.
Proof. split; reflexivity. Qed.
Print Assumptions C105_words. Print Assumptions C105_every. Print Assumptions C105_same. Print Assumptions C105_open.
