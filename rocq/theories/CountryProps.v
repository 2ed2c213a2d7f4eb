(** C42: countries *)
From Verif Require Import Py PyFacts Text Words WordsProofs RuleSpec RebulkFacts Country.
From Coq Require Import Arith Lia Sorted ZifyBool.

Section Country.
  Context (countries : list (str * str)) (fromname : str -> option str).
  (** an entry of the database *)
  Definition entry (alpha2 name : str) : Prop := In (alpha2, name) countries.
  (** the word [w] means the country [alpha2]: by a synonym of the configuration (the last one written), else as a code, else by name *)
  Inductive last_synonym (syn : list (str * list str)) (w alpha2 : str) : Prop :=
  | last_syn l1 l2 l3 l4 v : syn = l1 ++ (alpha2, l2 ++ v :: l3) :: l4 -> lower v = w ->
      (forall x, In x l3 -> lower x <> w) -> (forall e x, In e l4 -> In x (snd e) -> lower x <> w) -> last_synonym syn w alpha2.
  Definition synonym (syn : list (str * list str)) (w : str) : Prop := exists alpha2 l v, In (alpha2, l) syn /\ In v l /\ lower v = w.
  Definition means (syn : list (str * list str)) (w alpha2 : str) : Prop :=
    last_synonym syn (lower w) alpha2 \/
    (~ synonym syn (lower w) /\
     ((exists n, entry (upper w) n) /\ alpha2 = upper w \/ (~ exists n, entry (upper w) n) /\ fromname w = Some alpha2)).
  Definition allowed_country (allowed : list str) (alpha2 : str) : Prop :=
    exists n x, entry alpha2 n /\ In x allowed /\ (lower x = lower n \/ lower x = lower alpha2).
  (** the codes are unique and those of the configuration exist *)
  Definition valid_database (syn : list (str * list str)) : Prop :=
    NoDup (map fst countries) /\ (forall w a, means syn w a -> exists n, entry a n).

  Lemma country_name_iff : NoDup (map fst countries) -> forall a n, country_name countries a = Some n <-> entry a n.
  Proof.
    intros ND a n. unfold country_name, entry. destruct (find _ _) as [[a' n']|] eqn:E.
    - apply find_some in E as [H E]. cbn in E. apply str_eqb_eq in E. subst a'. cbn [snd]. split; [intros X; injection X as <-; exact H|].
      intros H'. assert ((a, n) = (a, n')) by (apply (map_inj fst countries); auto). congruence.
    - split; [discriminate|]. intros H. rewrite find_none in E. specialize (E _ H). cbn in E. rewrite str_eqb_refl in E. discriminate.
  Qed.
  Lemma country_name_none a : country_name countries a = None <-> ~ exists n, entry a n.
  Proof.
    unfold country_name, entry. destruct (find _ _) as [[a' n']|] eqn:E.
    - apply find_some in E as [H E]. cbn in E. apply str_eqb_eq in E. subst a'. split; [discriminate|]. intros N. exfalso. apply N. exists n'. exact H.
    - split; [|reflexivity]. intros _ (n & H). rewrite find_none in E. specialize (E _ H). cbn in E. rewrite str_eqb_refl in E. discriminate.
  Qed.
  Lemma exception_none syn w : exception syn w = None <-> ~ synonym syn w.
  Proof.
    unfold exception, synonym. destruct (find _ _) as [[v a]|] eqn:E.
    - apply find_some in E as [H E]. cbn in E. apply str_eqb_eq in E. subst v. apply in_rev, in_flat_map in H as ([a' l] & H & H').
      apply in_map_iff in H' as (v & Ev & Hv). cbn in Ev, Hv. injection Ev as E1 E2. subst. split; [discriminate|]. intros N. exfalso. apply N. exists a, l, v. auto.
    - split; [|reflexivity]. intros _ (a & l & v & H & Hv & Ev). rewrite find_none in E. specialize (E (w, a)). cbn in E. rewrite str_eqb_refl in E.
      enough (true = false) by discriminate. apply E, in_rev. rewrite rev_involutive. apply in_flat_map. exists (a, l). split; [exact H|]. cbn. subst w. apply in_map_iff. exists v; auto.
  Qed.
  Lemma find_app {A} (p : A -> bool) l l' : find p (l ++ l') = match find p l with Some x => Some x | None => find p l' end.
  Proof. induction l as [|x l IH]; cbn [app find]; [reflexivity|]. destruct (p x); auto. Qed.
  Lemma exception_some syn w a : exception syn w = Some a <-> last_synonym syn w a.
  Proof.
    unfold exception. induction syn as [|[a0 l0] syn IH].
    - cbn. split; [discriminate|]. intros [l1 l2 l3 l4 v E]. destruct l1; discriminate.
    - unfold exceptions in *. cbn [flat_map fst snd]. rewrite rev_app_distr, find_app.
      destruct (find (fun e => str_eqb (fst e) w) (rev (flat_map _ syn))) as [[v' a']|] eqn:E.
      + rewrite IH. split.
        * intros [l1 l2 l3 l4 v -> Hv H1 H2]. apply (last_syn _ _ _ ((a0, l0) :: l1) l2 l3 l4 v); auto.
        * intros [l1 l2 l3 l4 v Es Hv H1 H2]. destruct l1 as [|e l1].
          -- exfalso. injection Es as -> -> ->. apply find_some in E as [E E']. cbn in E'. apply str_eqb_eq in E'. subst v'. apply in_rev in E. apply in_flat_map in E as ([a1 l] & E1 & E2).
             apply in_map_iff in E2 as (x & Ex & Hx). cbn in Ex, Hx. injection Ex as Ex _. exact (H2 (a1, l) x E1 Hx Ex).
          -- injection Es as <- ->. apply (last_syn _ _ _ l1 l2 l3 l4 v); auto.
      + clear IH. assert (No : forall e x, In e syn -> In x (snd e) -> lower x <> w).
        { intros [a1 l] x He Hx Ex. rewrite find_none in E. specialize (E (w, a1)). cbn in E. rewrite str_eqb_refl in E. enough (true = false) by discriminate.
          apply E. rewrite <- in_rev. apply in_flat_map. exists (a1, l). split; [exact He|]. cbn. subst w. apply in_map_iff. exists x; auto. }
        assert (G : match find (fun e => str_eqb (fst e) w) (rev (map (fun v => (lower v, a0)) l0)) with Some e => Some (snd e) | None => None end = Some a <->
                    a = a0 /\ exists l2 v l3, l0 = l2 ++ v :: l3 /\ lower v = w /\ forall x, In x l3 -> lower x <> w).
        { clear. induction l0 as [|v l0 IH]; [cbn; split; [discriminate|intros (_ & l2 & v & l3 & E & _); destruct l2; discriminate]|].
          cbn [map rev]. rewrite find_app. destruct (find (fun e => str_eqb (fst e) w) (rev (map (fun v => (lower v, a0)) l0))) as [e|] eqn:E.
          - rewrite IH. split; intros (Ha & l2 & v' & l3 & El & Ev & H); (split; [exact Ha|]).
            + exists (v :: l2), v', l3. subst l0. auto.
            + destruct l2 as [|x l2]; [|injection El as -> ->; exists l2, v', l3; auto]. injection El as -> ->. exfalso.
              apply find_some in E as [E E']. apply str_eqb_eq in E'. apply in_rev in E. apply in_map_iff in E as (x & <- & Hx). exact (H x Hx E').
          - cbn [find fst snd]. assert (No : forall x, In x l0 -> lower x <> w).
            { intros x Hx Ex. rewrite find_none in E. specialize (E (lower x, a0)). cbn in E. rewrite Ex, str_eqb_refl in E. enough (true = false) by discriminate. apply E. rewrite <- in_rev. apply in_map_iff. exists x. rewrite Ex; auto. }
            clear IH E. destruct (str_eqb (lower v) w) eqn:Ev.
            + apply str_eqb_eq in Ev. split; [intros X; injection X as <-; split; [reflexivity|]; exists [], v, l0; auto|]. intros (-> & _). reflexivity.
            + split; [discriminate|]. intros (_ & l2 & v' & l3 & El & Ev' & H). destruct l2 as [|x l2].
              * injection El as -> ->. rewrite Ev', str_eqb_refl in Ev. discriminate.
              * injection El as -> ->. exfalso. apply (No v'); [apply in_app_iff; right; left; reflexivity|exact Ev']. }
        rewrite G. split.
        * intros (-> & l2 & v & l3 & -> & Ev & H). apply (last_syn _ _ _ [] l2 l3 syn v); auto.
        * intros [l1 l2 l3 l4 v Es Hv H1 H2]. destruct l1 as [|e l1].
          -- injection Es as -> -> ->. split; [reflexivity|]. exists l2, v, l3. auto.
          -- injection Es as <- ->. exfalso. apply (No (a, l2 ++ v :: l3) v); [apply in_app_iff; right; left; reflexivity|cbn; apply in_app_iff; right; left; reflexivity|exact Hv].
  Qed.
  Lemma reverse_iff syn w a : reverse countries fromname syn w = Some a <-> means syn w a.
  Proof.
    unfold reverse, means. destruct (exception syn (lower w)) as [a'|] eqn:E.
    - assert (S : synonym syn (lower w)) by (destruct (exception_none syn (lower w)) as [_ H]; destruct (Bool.bool_dec true true) as [_|]; [|congruence];
        apply exception_some in E as [l1 l2 l3 l4 v -> Hv _ _]; exists a', (l2 ++ v :: l3), v; rewrite !in_app_iff; cbn; auto).
      rewrite <- exception_some. rewrite E. split; [auto|]. intros [H|[H _]]; [exact H|contradiction].
    - apply exception_none in E. assert (N : ~ last_synonym syn (lower w) a).
      { intros [l1 l2 l3 l4 v -> Hv _ _]. apply E. exists a, (l2 ++ v :: l3), v. rewrite !in_app_iff; cbn; auto. }
      destruct (country_name countries (upper w)) as [n|] eqn:C.
      + assert (X : exists n, entry (upper w) n) by (unfold country_name in C; destruct (find _ countries) as [[a1 n1]|] eqn:F; [|discriminate]; apply find_some in F as [F1 F2]; cbn in F2; apply str_eqb_eq in F2; subst; exists n1; exact F1).
        split; [intros H; injection H as <-; right; auto|]. intros [H|[_ [[_ ->]|[H _]]]]; [contradiction|reflexivity|contradiction].
      + apply country_name_none in C. split; [intros H; right; auto|]. intros [H|[_ [[H _]|[_ H]]]]; [contradiction|contradiction|exact H].
  Qed.
  (** the words of the input are those of its text in lower case *)
  Lemma lower_nth t k : nth_error (lower t) k = option_map to_lower (nth_error t k).
  Proof. unfold lower. apply nth_error_map. Qed.
  (** every country found is a word of the stripped input which is not common and means an allowed country, and conversely;
      the countries come in the order of the text *)
  Theorem C42_countries syn allowed common s : valid_database syn ->
    exists out, find_countries countries fromname syn allowed common s = Ok out /\
      StronglySorted (fun x y => snd (fst x) < fst (fst y)) out /\
      forall a b alpha2, In (a, b, alpha2) out <->
        maximal_run is_word_sep (lower (strip is_space s)) a b /\
        let w := slice a b (lower (strip is_space s)) in
        ~ In (lower w) common /\ means syn w alpha2 /\ allowed_country allowed alpha2.
  Proof.
    intros [ND V]. unfold find_countries. set (t := lower (strip is_space s)).
    destruct (iter_words_spec t) as (Sp & So & Ru). rewrite Forall_forall in Sp.
    assert (W : forall w, exists l, find_word countries fromname syn allowed common w = Ok l /\ forall a b alpha2, In (a, b, alpha2) l <->
       a = w_start w /\ b = w_end w /\ ~ In (lower (w_value w)) common /\ means syn (w_value w) alpha2 /\ allowed_country allowed alpha2).
    { intros w. unfold find_word. destruct (smem (lower (w_value w)) common) eqn:Ec.
      - apply smem_In in Ec. exists []. split; [reflexivity|]. intros a b alpha2. split; [intros []|tauto].
      - assert (Nc : ~ In (lower (w_value w)) common) by (rewrite <- smem_In; congruence).
        unfold fromguessit. destruct (reverse countries fromname syn (w_value w)) as [x|] eqn:Er.
        + destruct (V (w_value w) x (proj1 (reverse_iff _ _ _) Er)) as (n & Hn). rewrite (proj2 (country_name_iff ND x n) Hn). cbn [bind].
          assert (A : smem (lower n) (map lower allowed) || smem (lower x) (map lower allowed) = true <-> allowed_country allowed x).
          { rewrite Bool.orb_true_iff, !smem_In, !in_map_iff. unfold allowed_country. split.
            - intros [(y & E & Hy)|(y & E & Hy)]; exists n, y; auto.
            - intros (n' & y & Hn' & Hy & H). apply (country_name_iff ND) in Hn, Hn'. replace n' with n in * by congruence. destruct H as [H|H]; [left|right]; exists y; auto. }
          assert (M : forall alpha2, means syn (w_value w) alpha2 <-> alpha2 = x) by (intros alpha2; rewrite <- reverse_iff, Er; split; congruence).
          destruct (_ || _).
          * eexists. split; [reflexivity|]. intros a b alpha2. rewrite M. split.
            -- intros [E|[]]. injection E as <- <- <-. split; [reflexivity|]. split; [reflexivity|]. split; [exact Nc|]. split; [reflexivity|]. apply A; reflexivity.
            -- intros (-> & -> & _ & -> & _). left; reflexivity.
          * eexists. split; [reflexivity|]. intros a b alpha2. rewrite M. split; [intros []|]. intros (_ & _ & _ & -> & H). apply A in H. discriminate.
        + cbn [bind]. exists []. split; [reflexivity|]. intros a b alpha2. split; [intros []|]. intros (_ & _ & _ & H & _). apply reverse_iff in H. congruence. }
    destruct (mapM_total (find_word countries fromname syn allowed common) (iter_words t)) as (ls & Em); [intros w _; destruct (W w) as (l & -> & _); eexists; reflexivity|].
    rewrite Em. cbn [bind]. apply mapM_Ok in Em. eexists. split; [reflexivity|]. split.
    - assert (One : Forall2 (fun w l => forall x, In x l -> fst (fst x) = w_start w /\ snd (fst x) = w_end w) (iter_words t) ls /\ Forall (fun l => l = [] \/ exists x, l = [x]) ls).
      { clear - Em. induction Em as [|w l ws ls E Em [IH1 IH2]]; [split; constructor|]. unfold find_word in E.
        destruct (smem _ _); [injection E as <-; split; constructor; auto; intros x []|].
        destruct (fromguessit _ _ _ _) as [[[al n]|]|]; cbn [bind] in E; [|injection E as <-; split; constructor; auto; intros x []|discriminate].
        destruct (_ || _); injection E as <-; split; constructor; auto; [|right; eexists; reflexivity|intros x []]. intros x [<-|[]]. auto. }
      destruct One as [O1 O2]. clear Em Ru Sp W. revert So O2. induction O1 as [|w l ws ls H1 O1 IH]; intros So O2; [constructor|].
      inversion So as [|? ? So' Fo]; subst. inversion O2 as [|? ? Ol O2']; subst. cbn [List.concat].
      specialize (IH So' O2'). destruct Ol as [->|(x & ->)]; [exact IH|]. cbn [app]. constructor; [exact IH|].
      rewrite Forall_forall in Fo |- *. intros y Hy. apply in_concat in Hy as (l' & Hl' & Hy).
      destruct (Forall2_In_r _ _ _ _ O1 Hl') as (w' & Hw' & H'). destruct (H' y Hy) as [-> _]. destruct (H1 x (or_introl eq_refl)) as [_ ->]. apply Fo; exact Hw'.
    - intros a b alpha2. rewrite in_concat. split.
      + intros (l & Hl & H). destruct (Forall2_In_r _ _ _ _ Em Hl) as (w & Hw & Ew). destruct (W w) as (l' & El' & Hl'). rewrite El' in Ew. injection Ew as ->.
        destruct (proj1 (Hl' a b alpha2) H) as (Ea & Eb & H'); clear H; subst a b; rename H' into H. split; [apply Ru; exists w; auto|]. cbn zeta. specialize (Sp w Hw). unfold spanned in Sp. rewrite <- Sp. exact H.
      + intros (R & H). cbn zeta in H. apply Ru in R as (w & Hw & <- & <-). specialize (Sp w Hw). unfold spanned in Sp. rewrite <- Sp in H.
        destruct (Forall2_In_l _ _ _ w Em Hw) as (l & Hl & El). destruct (W w) as (l' & El' & Hl'). rewrite El' in El. injection El as ->.
        exists l. split; [exact Hl|]. apply Hl'. auto.
  Qed.
  (** without leading whitespace the span is where the word is in the input *)
  Theorem C42_span syn allowed common s out a b alpha2 : (forall c r, s = c :: r -> is_space c = false) ->
    find_countries countries fromname syn allowed common s = Ok out -> In (a, b, alpha2) out ->
    slice a b (lower (strip is_space s)) = lower (slice a b s) /\ a < b <= List.length s.
  Proof.
    intros Hs H Hin.
    assert (St : exists z, s = strip is_space s ++ z).
    { unfold strip. replace (lstrip is_space s) with s by (destruct s as [|c r]; [reflexivity|]; cbn [lstrip]; rewrite (Hs c r eq_refl); reflexivity).
      unfold rstrip. assert (G : forall l, exists z, l = z ++ lstrip is_space l) by (induction l as [|c l (z & IH)]; [exists []; reflexivity|]; cbn [lstrip]; destruct (is_space c); [exists (c :: z); cbn; rewrite <- IH; reflexivity|exists []; reflexivity]).
      destruct (G (rev s)) as (z & E). exists (rev z). rewrite <- rev_app_distr, <- E, rev_involutive. reflexivity. }
    destruct St as (z & Es). set (u := strip is_space s) in *.
    unfold find_countries in H. fold u in H. destruct (mapM _ _) as [ls|] eqn:Em; cbn [bind] in H; [|discriminate]. injection H as <-.
    apply mapM_Ok in Em. apply in_concat in Hin as (l & Hl & Hin). destruct (Forall2_In_r _ _ _ _ Em Hl) as (w & Hw & Ew).
    destruct (iter_words_spec (lower u)) as (_ & _ & Ru). destruct (proj1 (Ru (w_start w) (w_end w))) as (Hb & _); [exists w; auto|].
    assert (a = w_start w /\ b = w_end w) as [-> ->].
    { unfold find_word in Ew. destruct (smem _ _); [injection Ew as <-; destruct Hin|].
      destruct (fromguessit _ _ _ _) as [[[al n]|]|]; cbn [bind] in Ew; [|injection Ew as <-; destruct Hin|discriminate].
      destruct (_ || _); injection Ew as <-; [|destruct Hin]. destruct Hin as [E|[]]. injection E as <- <- _. auto. }
    assert (Lu : List.length (lower u) = List.length u) by (unfold lower; apply map_length). rewrite Lu in Hb.
    assert (Ls : List.length s = List.length u + List.length z) by (rewrite Es at 1; apply app_length).
    split; [|lia]. rewrite Es at 1. unfold slice, lower. rewrite skipn_map, firstn_map. f_equal.
    rewrite skipn_app, firstn_app. replace (w_end w - w_start w - List.length (skipn (w_start w) u)) with 0 by (rewrite skipn_length; lia).
    cbn [firstn]. rewrite app_nil_r. reflexivity.
  Qed.
End Country.
Print Assumptions C42_countries.
Print Assumptions C42_span.
Definition db : list (str * str) := [(lit "US", lit "UNITED STATES"); (lit "GB", lit "UNITED KINGDOM"); (lit "FR", lit "FRANCE")].
Definition db_name (s : str) : option str := if str_eqb (upper s) (lit "FRANCE") then Some (lit "FR") else None.
Definition db_syn : list (str * list str) := [(lit "GB", [lit "uk"]); (lit "US", [lit "usa"; lit "us"])].
Example C42_example : find_countries db db_name db_syn [lit "us"; lit "FRANCE"] [lit "fr"] (lit "The Office (US) FR uk France") = Ok [(12, 14, lit "US"); (22, 28, lit "FR")].
Proof. reflexivity. Qed.
Example C42_example_valid : forall w a, means db db_name db_syn w a -> exists n, entry db a n.
Proof.
  intros w a [[l1 l2 l3 l4 v E _ _ _]|[_ [[H ->]|[_ H]]]].
  - assert (In (a, l2 ++ v :: l3) db_syn) as I by (rewrite E; apply in_app_iff; right; left; reflexivity).
    destruct I as [I|[I|[]]]; injection I as <- _; [exists (lit "UNITED KINGDOM")|exists (lit "UNITED STATES")]; cbn; auto.
  - exact H.
  - unfold db_name in H. destruct (str_eqb _ _); [|discriminate]. injection H as <-. exists (lit "FRANCE"). cbn; auto.
Qed.
(** limit: with leading whitespace the span is not where the country is *)
Theorem C42_leading_space_refuted : exists s out a b, find_countries db db_name db_syn [lit "us"] [] s = Ok out /\ In (a, b, lit "US") out /\
  lower (slice a b s) <> lit "us".
Proof. exists (lit "  Office US"), [(7, 9, lit "US")], 7, 9. split; [reflexivity|]. split; [left; reflexivity|]. vm_compute. discriminate. Qed.
Print Assumptions C42_leading_space_refuted.
(** limit: a synonym configured for an unknown code makes the guess fail *)
Theorem C42_unknown_code_refuted : exists syn s, find_countries db db_name syn [lit "us"] [] s = Err ValueError.
Proof. exists [(lit "EN", [lit "england"])], (lit "in England"). reflexivity. Qed.
Print Assumptions C42_unknown_code_refuted.
