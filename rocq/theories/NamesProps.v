(** C94: the names of languages and countries *)
From Verif Require Import Py PyFacts Text Words WordsProofs WordsProps RuleSpec RebulkFacts Country CountryProps Language Names.
From Coq Require Import Arith Lia ZifyBool Permutation.

(** what a configured code denotes: [por] or [por_BR] *)
Inductive code_means : str -> triple -> Prop :=
| plain_code a : ~ In 95%N a -> code_means a (a, None, None)
| country_code a b : ~ In 95%N a -> ~ In 95%N b -> code_means (a ++ 95%N :: b) (a, Some b, None).
(** the first of the lookups which accepts a name *)
Inductive first_accepts (name : str) : list (str -> option triple) -> triple -> Prop :=
| first_yes f r t : f name = Some t -> first_accepts name (f :: r) t
| first_no f r t : f name = None -> first_accepts name r t -> first_accepts name (f :: r) t.

Lemma split_no c s : ~ In c s -> split_char c s = [s].
Proof.
  induction s as [|x s IH]; intros N; [reflexivity|]. cbn [split_char]. destruct (N.eqb_spec x c) as [->|_]; [exfalso; apply N; left; reflexivity|].
  rewrite IH; [reflexivity|]. intros H. apply N. right. exact H.
Qed.
Lemma split_cut c a b : ~ In c a -> split_char c (a ++ c :: b) = a :: split_char c b.
Proof.
  induction a as [|x a IH]; intros N; cbn [app split_char].
  - rewrite N.eqb_refl. reflexivity.
  - destruct (N.eqb_spec x c) as [->|_]; [exfalso; apply N; left; reflexivity|]. rewrite IH; [reflexivity|]. intros H. apply N. right. exact H.
Qed.
Lemma split_nonempty c s : split_char c s <> [].
Proof. destruct s as [|x s]; cbn [split_char]; [discriminate|]. destruct (x =? c)%N; [discriminate|]. destruct (split_char c s); discriminate. Qed.
Lemma split_inv c s p ps : split_char c s = p :: ps -> ~ In c p /\ (s = p /\ ps = [] \/ exists r, s = p ++ c :: r /\ split_char c r = ps).
Proof.
  revert p ps. induction s as [|x s IH]; intros p ps; cbn [split_char].
  - intros E. injection E as <- <-. split; [intros []|left; auto].
  - destruct (N.eqb_spec x c) as [->|Hx].
    + intros E. injection E as <- <-. split; [intros []|]. right. exists s. auto.
    + destruct (split_char c s) as [|q qs] eqn:Es; [exfalso; exact (split_nonempty c s Es)|]. intros E. injection E as <- <-.
      destruct (IH q qs eq_refl) as [N H]. split; [intros [->|K]; [contradiction|exact (N K)]|].
      destruct H as [[-> ->]|(r & -> & Hr)]; [left; auto|right; exists r; auto].
Qed.
Lemma cmem_iff c s : cmem c s = true <-> In c s.
Proof. apply cmem_In. Qed.
Lemma split_code_iff code a b : split_code code = Ok (a, b) <-> code_means code (a, b, None).
Proof.
  unfold split_code. destruct (cmem 95%N code) eqn:C.
  - apply cmem_iff in C. split.
    + destruct (split_char 95%N code) as [|p [|q [|z l]]] eqn:E; try discriminate. intros X. injection X as <- <-.
      apply split_inv in E as [N [[_ H]|(r & -> & E)]]; [discriminate|]. apply split_inv in E as [N' [[-> _]|(r' & _ & E)]]; [|exfalso; exact (split_nonempty _ _ E)].
      apply country_code; assumption.
    + intros M. inversion M as [x N E1 E2|x y N N' E1 E2]; subst; [contradiction|]. rewrite split_cut, split_no by assumption. reflexivity.
  - assert (N : ~ In 95%N code) by (rewrite <- cmem_iff; congruence). split.
    + intros X. injection X as <- <-. apply plain_code. exact N.
    + intros M. inversion M as [x _ E1 E2|x y _ _ E1 E2]; subst; [reflexivity|]. exfalso. apply N, in_app_iff. right. left. reflexivity.
Qed.
(** underscores in a code *)
Definition underscores (code : str) : nat := count_occ N.eq_dec code 95%N.
Lemma underscores_0 s : underscores s = 0 <-> ~ In 95%N s.
Proof. unfold underscores. rewrite (count_occ_not_In N.eq_dec). tauto. Qed.
Lemma underscores_app a b : underscores (a ++ b) = underscores a + underscores b.
Proof. apply count_occ_app. Qed.
Lemma split_code_err code : is_ok (split_code code) = true <-> underscores code <= 1.
Proof.
  split.
  - destruct (split_code code) as [[a b]|] eqn:E; [|discriminate]. intros _. apply split_code_iff in E.
    inversion E as [x N E1 E2|x y N N' E1 E2]; subst; [apply underscores_0 in N; lia|].
    rewrite underscores_app. unfold underscores at 2. cbn [count_occ]. destruct (N.eq_dec 95 95); [|congruence]. fold (underscores y). apply underscores_0 in N, N'. lia.
  - intros H. destruct (in_dec N.eq_dec 95%N code) as [I|N].
    + apply in_split in I as (a & b & ->). rewrite underscores_app in H. unfold underscores at 2 in H. cbn [count_occ] in H. destruct (N.eq_dec 95 95); [|congruence].
      fold (underscores b) in H. assert (E : split_code (a ++ 95%N :: b) = Ok (a, Some b)) by (apply split_code_iff, country_code; apply underscores_0; lia).
      rewrite E. reflexivity.
    + assert (E : split_code code = Ok (code, None)) by (apply split_code_iff, plain_code, N). rewrite E. reflexivity.
Qed.
Lemma mapM_cases {A B} (f : A -> res B) l : is_ok (mapM f l) = true <-> forall x, In x l -> is_ok (f x) = true.
Proof.
  induction l as [|x l IH]; cbn [mapM]; [split; [intros _ x []|reflexivity]|]. destruct (f x) as [y|e] eqn:Ex; cbn [bind].
  - destruct (mapM f l) as [ys|e] eqn:El; cbn [bind is_ok].
    + split; [|reflexivity]. intros _ z [<-|Hz]; [rewrite Ex; reflexivity|]. apply IH; [reflexivity|exact Hz].
    + split; [discriminate|]. intros H. apply IH. intros z Hz. apply H. right. exact Hz.
  - split; [discriminate|]. intros H. specialize (H x (or_introl eq_refl)). rewrite Ex in H. discriminate.
Qed.
(** C94: the synonyms of languages can be used exactly if every code has at most one underscore. *)
Theorem C94_codes : forall synonyms, is_ok (lang_converter synonyms) = true <-> forall code l, In (code, l) synonyms -> underscores code <= 1.
Proof.
  intros syn. unfold lang_converter. transitivity (is_ok (mapM (fun e => c <- split_code (fst e); Ok (map (fun s => (lower s, (fst c, snd c, None) : triple)) (snd e))) syn) = true).
  - destruct (mapM _ syn); cbn; tauto.
  - rewrite mapM_cases. split.
    + intros H code l I. specialize (H _ I). cbn [fst] in H. apply split_code_err. destruct (split_code code); [reflexivity|discriminate].
    + intros H [code l] I. specialize (H _ _ I). apply split_code_err in H. cbn [fst]. destruct (split_code code); [reflexivity|discriminate].
Qed.
Print Assumptions C94_codes.
Example C94_codes_bad : lang_converter [(lit "por_BR_x", [])] = Err ValueError.
Proof. reflexivity. Qed.

(** what a code is split into *)
Definition split_of (code : str) : triple := match split_code code with Ok (a, b) => (a, b, None) | Err _ => ([], None, None) end.
Lemma converter_map syn d : lang_converter syn = Ok d ->
  d = map (fun e => (fst e, split_of (snd e))) (exceptions syn) /\ forall code l, In (code, l) syn -> code_means code (split_of code).
Proof.
  unfold lang_converter. revert d. induction syn as [|[code sl] syn IH]; intros d; cbn [mapM fst snd].
  - intros E. injection E as <-. split; [reflexivity|intros c l []].
  - destruct (split_code code) as [[a b]|] eqn:Ec; cbn [bind fst snd]; [|discriminate].
    destruct (mapM _ syn) as [l'|] eqn:El; cbn [bind]; [|discriminate]. intros E. injection E as <-. cbn [bind] in IH. destruct (IH _ eq_refl) as [E1 E2].
    assert (Hs : split_of code = (a, b, None)) by (unfold split_of; rewrite Ec; reflexivity). split.
    + unfold exceptions. cbn [List.concat flat_map fst snd]. fold (exceptions syn). rewrite map_app, <- E1, map_map. f_equal. apply map_ext. intros v. cbn [fst snd]. rewrite Hs. reflexivity.
    + intros c l [X|X]; [|exact (E2 c l X)]. injection X as <- <-. rewrite Hs. apply split_code_iff. exact Ec.
Qed.
Lemma lookup_map {A B} (g : A -> B) (d : list (str * A)) k : lookup_last (map (fun e => (fst e, g (snd e))) d) k = option_map g (lookup_last d k).
Proof.
  unfold lookup_last. rewrite <- map_rev. induction (rev d) as [|[x y] l IH]; [reflexivity|]. cbn [map find fst snd]. destruct (str_eqb x k); [reflexivity|exact IH].
Qed.
Lemma exception_code syn w code : exception syn w = Some code -> exists l, In (code, l) syn.
Proof. intros E. apply exception_some in E as [l1 l2 l3 l4 v -> _ _ _]. exists (l2 ++ v :: l3). apply in_app_iff. right. left. reflexivity. Qed.
Lemma converter_lookup syn d w : lang_converter syn = Ok d ->
  match exception syn w with
  | Some code => exists t, lookup_last d w = Some t /\ code_means code t
  | None => lookup_last d w = None
  end.
Proof.
  intros E. apply converter_map in E as [-> M]. rewrite lookup_map. unfold lookup_last. fold (exception syn w). destruct (exception syn w) as [code|] eqn:X; [|reflexivity].
  exists (split_of code). split; [reflexivity|]. destruct (exception_code _ _ _ X) as [l I]. exact (M _ _ I).
Qed.
Lemma code_means_fun code t t' : code_means code t -> code_means code t' -> t = t'.
Proof.
  destruct t as [[a b] [c|]], t' as [[a' b'] [c'|]]; intros H H'; try (inversion H; fail); try (inversion H'; fail).
  apply split_code_iff in H, H'. congruence.
Qed.
Lemma first_some_iff (l : list (str -> option triple)) w t : first_some (fun conv => conv w) l = Some t <-> first_accepts w l t.
Proof.
  induction l as [|f l IH]; cbn [first_some].
  - split; [discriminate|intros H; inversion H].
  - destruct (f w) as [x|] eqn:E; split.
    + intros X. injection X as <-. apply first_yes. exact E.
    + intros H. inversion H; congruence.
    + intros X. apply first_no; [exact E|]. apply IH. exact X.
    + intros H. inversion H; subst; [congruence|]. apply IH. assumption.
Qed.
(** C94: a name, in any case, means the code it is listed under in the configuration (the last one if there are several),
    else what the first of the standard lookups which accepts it says. *)
Theorem C94_language : forall constructors synonyms d name t, lang_converter synonyms = Ok d ->
  (lang_reverse constructors d name = Some t <->
   (exists code, last_synonym synonyms (lower name) code /\ code_means code t) \/
   (~ synonym synonyms (lower name) /\ first_accepts (lower name) constructors t)).
Proof.
  intros cs syn d name t E. unfold lang_reverse. pose proof (converter_lookup syn d (lower name) E) as L. destruct (exception syn (lower name)) as [code|] eqn:X.
  - destruct L as (t' & -> & M). assert (S : synonym syn (lower name)).
    { apply exception_some in X as [l1 l2 l3 l4 v -> Hv _ _]. exists code, (l2 ++ v :: l3), v. rewrite !in_app_iff. cbn. auto. }
    split.
    + intros K. injection K as <-. left. exists code. split; [apply exception_some; exact X|exact M].
    + intros [(c & K & M')|[N _]]; [|contradiction]. apply exception_some in K. rewrite X in K. injection K as <-. f_equal. exact (code_means_fun _ _ _ M M').
  - rewrite L. apply exception_none in X. rewrite first_some_iff. split; [auto|]. intros [(c & [l1 l2 l3 l4 v -> Hv _ _] & _)|[_ H]]; [|exact H].
    exfalso. apply X. exists c, (l2 ++ v :: l3), v. rewrite !in_app_iff. cbn. auto.
Qed.
Print Assumptions C94_language.
(** C94: the case of the name does not matter. *)
Theorem C94_case : forall constructors d name name', lower name = lower name' -> lang_reverse constructors d name = lang_reverse constructors d name'.
Proof. intros cs d n n' E. unfold lang_reverse. rewrite E. reflexivity. Qed.
Print Assumptions C94_case.
(** a text is listed under one code only *)
Definition listed_once (synonyms : list (str * list str)) : Prop := forall c c' l l' v v', In (c, l) synonyms -> In (c', l') synonyms -> In v l -> In v' l' -> lower v = lower v' -> c = c'.
(** C94: when no text is listed under two codes, the order of the configuration does not matter. *)
Theorem C94_order : forall constructors syn syn' d d', Permutation syn syn' -> listed_once syn -> lang_converter syn = Ok d -> lang_converter syn' = Ok d' ->
  forall name, lang_reverse constructors d name = lang_reverse constructors d' name.
Proof.
  intros cs syn syn' d d' P O E E' name. unfold lang_reverse. set (w := lower name).
  enough (X : exception syn w = exception syn' w).
  { pose proof (converter_lookup syn d w E) as L. pose proof (converter_lookup syn' d' w E') as L'. rewrite <- X in L'. destruct (exception syn w) as [c|].
    - destruct L as (t & -> & M), L' as (t' & -> & M'). f_equal. exact (code_means_fun _ _ _ M M').
    - rewrite L, L'. reflexivity. }
  assert (Hin : forall c l, In (c, l) syn <-> In (c, l) syn') by (intros c l; split; [apply (Permutation_in _ P)|apply (Permutation_in _ (Permutation_sym P))]).
  destruct (exception syn w) as [c|] eqn:X; destruct (exception syn' w) as [c'|] eqn:X'; try reflexivity.
  - apply exception_some in X as [l1 l2 l3 l4 v Es Hv _ _]. apply exception_some in X' as [l1' l2' l3' l4' v' Es' Hv' _ _]. f_equal.
    apply (O c c' (l2 ++ v :: l3) (l2' ++ v' :: l3') v v').
    + rewrite Es. apply in_app_iff. right. left. reflexivity.
    + apply Hin. rewrite Es'. apply in_app_iff. right. left. reflexivity.
    + apply in_app_iff. right. left. reflexivity.
    + apply in_app_iff. right. left. reflexivity.
    + congruence.
  - exfalso. apply exception_none in X'. apply X'. apply exception_some in X as [l1 l2 l3 l4 v Es Hv _ _]. exists c, (l2 ++ v :: l3), v. repeat split; [|apply in_app_iff; right; left; reflexivity|exact Hv].
    apply Hin. rewrite Es. apply in_app_iff. right. left. reflexivity.
  - exfalso. apply exception_none in X. apply X. apply exception_some in X' as [l1 l2 l3 l4 v Es Hv _ _]. exists c', (l2 ++ v :: l3), v. repeat split; [|apply in_app_iff; right; left; reflexivity|exact Hv].
    apply Hin. rewrite Es. apply in_app_iff. right. left. reflexivity.
Qed.
Print Assumptions C94_order.
(** some of the synonyms of config/options.json, and two lookups *)
Definition some_synonyms : list (str * list str) :=
  [(lit "spa", [lit "esp"; lit "espanol"]); (lit "fra", [lit "vf"; lit "VFF"]); (lit "por_BR", [lit "po"; lit "pb"; lit "br"]); (lit "mul", [lit "multi"; lit "dl"])].
Definition by_alpha3 (s : str) : option triple := if smem s [lit "fra"; lit "eng"] then Some (s, None, None) else None.
Definition by_name (s : str) : option triple := if str_eqb s (lit "english") then Some (lit "eng", None, None) else if str_eqb s (lit "esp") then Some (lit "eng", None, None) else None.
Definition some_names : list (str * triple) := match lang_converter some_synonyms with Ok d => d | Err _ => [] end.
Example C94_example : lang_converter some_synonyms = Ok some_names /\
  map (lang_reverse [by_alpha3; by_name] some_names) [lit "PB"; lit "vff"; lit "English"; lit "ESP"; lit "xx"] =
  [Some (lit "por", Some (lit "BR"), None); Some (lit "fra", None, None); Some (lit "eng", None, None); Some (lit "spa", None, None); None].
Proof. vm_compute. auto. Qed.
Example C94_example_once : listed_once some_synonyms.
Proof.
  intros c c' l l' v v' H H' Hv Hv' E. unfold some_synonyms in H, H'. cbn [In] in H, H'.
  destruct H as [H|[H|[H|[H|[]]]]], H' as [H'|[H'|[H'|[H'|[]]]]]; injection H as <- <-; injection H' as <- <-; try reflexivity; exfalso; cbn [In] in Hv, Hv';
    repeat match goal with K : _ \/ _ |- _ => destruct K | K : False |- _ => destruct K end; subst v v'; vm_compute in E; discriminate E.
Qed.
(** limit: listed under two codes, a name goes to the last one *)
Theorem C94_order_refuted : exists syn syn' name, Permutation syn syn' /\ exists d d', lang_converter syn = Ok d /\ lang_converter syn' = Ok d' /\ lang_reverse [] d name <> lang_reverse [] d' name.
Proof.
  exists [(lit "spa", [lit "es"]); (lit "est", [lit "ES"])], [(lit "est", [lit "ES"]); (lit "spa", [lit "es"])], (lit "es"). split; [apply perm_swap|].
  eexists. eexists. split; [reflexivity|]. split; [reflexivity|]. vm_compute. discriminate.
Qed.
Print Assumptions C94_order_refuted.

(** C94: a country written as guessit writes it is read back, provided [UK] is a synonym of [GB] and no synonym is the code of another country. *)
Theorem C94_country_round : forall countries fromname syn alpha2 n,
  NoDup (map fst countries) -> In (alpha2, n) countries -> upper alpha2 = alpha2 ->
  last_synonym syn (lit "uk") (lit "GB") ->
  (forall c, last_synonym syn (lower alpha2) c -> c = alpha2) ->
  exists text, country_convert countries alpha2 = Ok text /\ reverse countries fromname syn text = Some alpha2.
Proof.
  intros cs fn syn a n ND I Up Uk Own. unfold country_convert. destruct (str_eqb a (lit "GB")) eqn:E.
  - apply str_eqb_eq in E. subst a. exists (lit "UK"). split; [reflexivity|]. apply reverse_iff. left. exact Uk.
  - assert (Hc : country_name cs a = Some n) by (apply country_name_iff; assumption). rewrite Hc. exists a. split; [reflexivity|]. unfold reverse.
    destruct (exception syn (lower a)) as [c|] eqn:X; [apply exception_some, Own in X; subst; reflexivity|]. rewrite Up, Hc. reflexivity.
Qed.
Print Assumptions C94_country_round.
Definition some_countries : list (str * list str) := [(lit "GB", [lit "UK"]); (lit "BR", [lit "brazilian"; lit "bra"]); (lit "CA", [lit "quebec"; lit "qc"]); (lit "MX", [lit "latin america"])].
Example C94_round_example : map (fun a => res_map (reverse db db_name some_countries) (country_convert db a)) [lit "GB"; lit "US"; lit "FR"] =
  [Ok (Some (lit "GB")); Ok (Some (lit "US")); Ok (Some (lit "FR"))].
Proof. vm_compute. reflexivity. Qed.
(** limit: without that synonym [UK] is not read back *)
Theorem C94_country_round_refuted : exists text, country_convert db (lit "GB") = Ok text /\ reverse db db_name [] text = None.
Proof. exists (lit "UK"). split; reflexivity. Qed.
Print Assumptions C94_country_round_refuted.

(** the synonyms which are one word *)
Definition one_word (v : str) : bool := negb (existsb word_sep v).
Definition one_words (syn : list (str * list str)) : list (str * list str) := map (fun e => (fst e, filter one_word (snd e))) syn.
Lemma sep_lower_word c : word_sep (to_lower c) = word_sep c.
Proof.
  unfold to_lower. destruct (is_upper c) eqn:U; [|reflexivity]. unfold is_upper in U.
  assert (H : exists k, k < 26 /\ c = N.of_nat (65 + k)) by (exists (N.to_nat c - 65); lia). destruct H as (k & Hk & ->). clear U.
  do 26 (destruct k as [|k]; [vm_compute; reflexivity|]). lia.
Qed.
Lemma one_word_lower v : existsb word_sep (lower v) = existsb word_sep v.
Proof. unfold lower. induction v as [|c v IH]; [reflexivity|]. cbn [map existsb]. rewrite sep_lower_word, IH. reflexivity. Qed.
Lemma one_words_exceptions syn : exceptions (one_words syn) = filter (fun e => one_word (fst e)) (exceptions syn).
Proof.
  unfold exceptions, one_words. induction syn as [|[c l] syn IH]; [reflexivity|]. cbn [map flat_map fst snd]. rewrite filter_app, IH. f_equal.
  clear. induction l as [|v l IH]; [reflexivity|]. cbn [map filter fst snd]. replace (one_word (lower v)) with (one_word v) by (unfold one_word; rewrite one_word_lower; reflexivity). destruct (one_word v); [|exact IH]. cbn [map]. rewrite IH. reflexivity.
Qed.
Lemma filter_rev' {A} (p : A -> bool) l : filter p (rev l) = rev (filter p l).
Proof. induction l as [|x l IH]; [reflexivity|]. cbn [rev filter]. rewrite filter_app, IH. cbn [filter]. destruct (p x); [reflexivity|apply app_nil_r]. Qed.
Lemma one_words_exception syn w : existsb word_sep w = false -> exception (one_words syn) w = exception syn w.
Proof.
  intros Hw. unfold exception. rewrite one_words_exceptions. rewrite <- filter_rev'. induction (rev (exceptions syn)) as [|[v c] l IH]; [reflexivity|]. cbn [filter find fst].
  destruct (str_eqb v w) eqn:E.
  - apply str_eqb_eq in E. subst v. unfold one_word at 1. rewrite Hw. cbn [negb find fst]. rewrite str_eqb_refl. reflexivity.
  - destruct (one_word v); [cbn [find fst]; rewrite E|]; exact IH.
Qed.
(** C94: countries are looked for word by word: synonyms of several words are never used. *)
Theorem C94_one_word : forall countries fromname syn allowed common s,
  find_countries countries fromname syn allowed common s = find_countries countries fromname (one_words syn) allowed common s.
Proof.
  intros cs fn syn allowed common s. unfold find_countries. set (t := lower (strip is_space s)).
  assert (H : forall w, In w (iter_words t) -> existsb word_sep (w_value w) = false).
  { intros w Hw. destruct (iter_words_spec t) as (Hs & _ & R). rewrite Forall_forall in Hs. rewrite (Hs w Hw).
    destruct (proj1 (R (w_start w) (w_end w))) as (L & Nosep & _); [exists w; auto|].
    destruct (existsb _ _) eqn:X; [|reflexivity]. apply existsb_exists in X as (c & Hc & Hsep). apply word_sep_iff in Hsep. exfalso.
    apply In_nth_error in Hc as [k Hk]. rewrite slice_nth in Hk. destruct (Nat.ltb_spec k (w_end w - w_start w)) as [Lk|]; [|discriminate].
    apply (Nosep (w_start w + k) c); [lia|exact Hk|exact Hsep]. }
  f_equal. induction (iter_words t) as [|w l IH]; [reflexivity|]. cbn [mapM]. rewrite IH by (intros x Hx; apply H; right; exact Hx).
  assert (E : find_word cs fn syn allowed common w = find_word cs fn (one_words syn) allowed common w); [|rewrite E; reflexivity].
  unfold find_word, fromguessit, reverse. rewrite one_words_exception; [reflexivity|]. rewrite one_word_lower. apply H. left. reflexivity.
Qed.
Print Assumptions C94_one_word.
(** limit: [latin america] is in the default configuration *)
Example C94_latin_america : find_countries ((lit "MX", lit "MEXICO") :: db) db_name some_countries [lit "mx"; lit "ca"] [] (lit "Show Latin America Quebec") =
  find_countries ((lit "MX", lit "MEXICO") :: db) db_name [(lit "GB", [lit "UK"]); (lit "BR", [lit "brazilian"; lit "bra"]); (lit "CA", [lit "quebec"; lit "qc"]); (lit "MX", [])] [lit "mx"; lit "ca"] [] (lit "Show Latin America Quebec").
Proof. apply C94_one_word. Qed.
(** C94: if every code of the configuration and every answer of the lookups denotes a language, the search raises nothing and is the function of C43. *)
Theorem C94_total : forall constructors language synonyms d, lang_converter synonyms = Ok d ->
  (forall code l t, In (code, l) synonyms -> code_means code t -> language t <> None) ->
  (forall conv name t, In conv constructors -> conv name = Some t -> language t <> None) ->
  forall name, lang_fromguessit constructors language d name = Ok (match lang_reverse constructors d name with Some t => language t | None => None end).
Proof.
  intros cs lg syn d E Hc Hl name. unfold lang_fromguessit. destruct (lang_reverse cs d name) as [t|] eqn:R; [|reflexivity].
  apply (C94_language cs syn d name t E) in R. assert (N : lg t <> None).
  { destruct R as [(c & [l1 l2 l3 l4 v Es _ _ _] & M)|[_ F]].
    - apply (Hc c (l2 ++ v :: l3) t); [|exact M]. rewrite Es. apply in_app_iff. right. left. reflexivity.
    - induction F as [f r t0 Hf|f r t0 Hf F IH]; [apply (Hl f (lower name)); [left; reflexivity|exact Hf]|]. apply IH. intros conv n x I. apply Hl. right. exact I. }
  destruct (lg t); [reflexivity|contradiction].
Qed.
Print Assumptions C94_total.
(** limit: a code no language has makes the guess fail *)
Theorem C94_total_refuted : exists language name d, lang_converter [(lit "xxx", [lit "klingon"])] = Ok d /\ lang_fromguessit [] language d name = Err ValueError.
Proof. exists (fun _ => None), (lit "Klingon"). eexists. split; reflexivity. Qed.
Print Assumptions C94_total_refuted.
