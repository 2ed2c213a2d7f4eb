(** C104: the options of the command line *)
From Verif Require Import Py PyFacts Args.
From Coq Require Import Arith ZifyBool.

(** * The options as documented (guessit --help): name of the option, letter, long form, what it takes *)
Inductive use := Switch | Setting | Collected.
Definition documented : list (string * string * string * use) :=
  [("type", "t", "type", Setting); ("name_only", "n", "name-only", Switch); ("date_year_first", "Y", "date-year-first", Switch);
   ("date_day_first", "D", "date-day-first", Switch); ("allowed_languages", "L", "allowed-languages", Collected);
   ("allowed_countries", "C", "allowed-countries", Collected); ("episode_prefer_number", "E", "episode-prefer-number", Switch);
   ("expected_title", "T", "expected-title", Collected); ("expected_group", "G", "expected-group", Collected);
   ("includes", "", "includes", Collected); ("excludes", "", "excludes", Collected); ("input_file", "f", "input-file", Setting);
   ("verbose", "v", "verbose", Switch); ("show_property", "P", "show-property", Setting); ("advanced", "a", "advanced", Switch);
   ("single_value", "s", "single-value", Switch); ("enforce_list", "l", "enforce-list", Switch); ("json", "j", "json", Switch);
   ("yaml", "y", "yaml", Switch); ("output_input_string", "i", "output-input-string", Switch); ("config", "c", "config", Collected);
   ("no_user_config", "", "no-user-config", Switch); ("no_default_config", "", "no-default-config", Switch);
   ("properties", "p", "properties", Switch); ("values", "V", "values", Switch); ("version", "", "version", Switch)]%string.
Definition option_is (d : str) (u : use) : Prop := exists n x y, In (n, x, y, u) documented /\ d = lit n.
Definition long (o d : str) (u : use) : Prop := exists n x y, In (n, x, y, u) documented /\ d = lit n /\ o = lit "--" ++ lit y.
Definition letter (c : N) (d : str) (u : use) : Prop := exists n x y, In (n, x, y, u) documented /\ d = lit n /\ [c] = lit x.

(** what a command line says *)
Inductive word := Said (d : str) | Gave (d v : str).
(** -1, -2.5 and -.5 *)
Definition digits (v : str) : Prop := forall c, In c v -> (48 <= c <= 57)%N.
Definition negative (v : str) : Prop := (exists d, v = lit "-" ++ d /\ d <> [] /\ digits d) \/ exists d e, v = lit "-" ++ d ++ lit "." ++ e /\ e <> [] /\ digits d /\ digits e.
(** a dash and a letter that is no option's *)
Definition no_letter (v : str) : Prop := exists c r, v = 45%N :: c :: r /\ c <> 45%N /\ (forall d u, ~ letter c d u) /\ lit "h" <> [c].
(** a name or a value: it does not begin with a dash, or is the dash alone, or a negative number, or a dash, no option's letter, and a space
    somewhere *)
Definition plain (v : str) : Prop := v = lit "-" \/ (forall r, v <> 45%N :: r) \/ negative v \/ (no_letter v /\ In 32%N v).
(** switches put together after one dash *)
Inductive switches : str -> list word -> Prop :=
| sw_nil : switches [] []
| sw_cons c d s ws : letter c d Switch -> switches s ws -> switches (c :: s) (Said d :: ws).
(** a value written with its letter *)
Definition joined (t v : str) : Prop := t = lit "=" ++ v \/ t = v /\ v <> [] /\ forall r, v <> 61%N :: r.
Inductive group : list str -> list word -> Prop :=
| g_long o d : long o d Switch -> group [o] [Said d]
| g_long_next o d u v : long o d u -> u <> Switch -> plain v -> group [o; v] [Gave d v]
| g_long_equal o d u v : long o d u -> u <> Switch -> group [o ++ lit "=" ++ v] [Gave d v]
| g_switches s ws : switches s ws -> s <> [] -> group [lit "-" ++ s] ws
| g_letter_next s ws c d u v : switches s ws -> letter c d u -> u <> Switch -> plain v -> group [lit "-" ++ s ++ [c]; v] (ws ++ [Gave d v])
| g_letter_joined s ws c d u t v : switches s ws -> letter c d u -> u <> Switch -> joined t v -> group [lit "-" ++ s ++ c :: t] (ws ++ [Gave d v]).
Inductive groups : list str -> list word -> Prop :=
| gs_nil : groups [] []
| gs_cons g ws r rs : group g ws -> groups r rs -> groups (g ++ r) (ws ++ rs).

(** what the options are then *)
Definition given (d : str) (ws : list word) : list str := flat_map (fun w => match w with Gave d' v => if str_eqb d' d then [v] else [] | Said _ => [] end) ws.
Definition option_value (d : str) (u : use) (ws : list word) (v : val) : Prop :=
  match u with
  | Switch => In (Said d) ws /\ v = VBool true \/
              ~ In (Said d) ws /\ (d = lit "output_input_string" /\ v = VBool false \/ d <> lit "output_input_string" /\ v = VNone)
  | Setting => (given d ws = [] /\ v = VNone) \/ exists before last, given d ws = before ++ [last] /\ v = VStr last
  | Collected => (given d ws = [] /\ v = VNone) \/ (given d ws <> [] /\ v = VList (map VStr (given d ws)))
  end.

(** * The table of the parser *)
Definition kind_of (u : use) : kind := match u with Switch => KFlag | Setting => KSingle | Collected => KAppend end.
Definition default_of (d : str) : val := if str_eqb d (lit "output_input_string") then VBool false else VNone.
Definition action_of (e : string * string * string * use) : action :=
  let '(n, x, y, u) := e in mk_a (lit n) ((match x with EmptyString => [] | _ => [lit "-" ++ lit x] end) ++ [lit "--" ++ lit y]) (kind_of u) (default_of (lit n)).
Lemma actions_documented : named_actions = map action_of documented.
Proof. vm_compute. reflexivity. Qed.

Ltac each H := cbn [In documented] in H; repeat (destruct H as [H|H]; [injection H as <- <- <- <-|]); [..|destruct H].

Definition is_action (a : action) (d : str) (u : use) : Prop := In a named_actions /\ a_dest a = d /\ a_kind a = kind_of u.
Ltac an_action := split; [rewrite actions_documented; apply in_map_iff; eexists; split; [reflexivity|]; vm_compute; tauto|split; reflexivity].
Lemma long_action o d u : long o d u -> exists a, is_action a d u /\ str_eqb o (lit "--") = false /\
  parse_optional o = Ok (Some (mk_o (Some a) o None None)) /\
  forall v, str_eqb (o ++ lit "=" ++ v) (lit "--") = false /\ parse_optional (o ++ lit "=" ++ v) = Ok (Some (mk_o (Some a) o (Some (lit "=")) (Some v))).
Proof.
  intros (n & x & y & H & -> & ->). exists (action_of (n, x, y, u)).
  split; [split; [rewrite actions_documented; apply in_map, H|split; reflexivity]|].
  each H; (split; [reflexivity|]; split; [vm_compute; reflexivity|]; intros v; split; reflexivity).
Qed.
Lemma letter_action c d u : letter c d u -> exists a, is_action a d u /\ lookup [45%N; c] option_strings = Some a /\ c <> 45%N /\ c <> 61%N /\
  parse_optional [45%N; c] = Ok (Some (mk_o (Some a) [45%N; c] None None)) /\
  (forall v, parse_optional (45%N :: c :: 61%N :: v) = Ok (Some (mk_o (Some a) [45%N; c] (Some (lit "=")) (Some v)))) /\
  (forall e r, e <> 61%N -> parse_optional (45%N :: c :: e :: r) = Ok (Some (mk_o (Some a) [45%N; c] (Some []) (Some (e :: r))))).
Proof.
  intros (n & x & y & H & -> & E). exists (action_of (n, x, y, u)).
  split; [split; [rewrite actions_documented; apply in_map, H|split; reflexivity]|].
  each H; try (discriminate E); injection E as ->;
    (split; [vm_compute; reflexivity|]; split; [discriminate|]; split; [discriminate|]; split; [vm_compute; reflexivity|]; split; [intros v; reflexivity|];
     intros e r He; unfold parse_optional; cbn [partition_eq]; change (45 =? 61)%N with false; cbv iota;
     match goal with |- context [(?k =? 61)%N] => change (k =? 61)%N with false end; cbv iota;
     replace (e =? 61)%N with false by (symmetry; apply N.eqb_neq; exact He);
     destruct (partition_eq r) as [b [w|]]; reflexivity).
Qed.

(** what each word makes the parser do *)
Inductive doing : word -> action * list str -> Prop :=
| do_said d a : is_action a d Switch -> doing (Said d) (a, [])
| do_gave d u a v : is_action a d u -> u <> Switch -> doing (Gave d v) (a, [v]).
Lemma switch_arity a d : is_action a d Switch -> arity a = 0.
Proof. intros (_ & _ & H). unfold arity. rewrite H. reflexivity. Qed.
Lemma other_arity a d u : is_action a d u -> u <> Switch -> arity a = 1.
Proof. intros (_ & _ & H) Hu. unfold arity. rewrite H. destruct u; [congruence|reflexivity|reflexivity]. Qed.

Lemma explicit_switches s ws : switches s ws -> forall a d0 c0 acts, is_action a d0 Switch -> c0 <> 45%N -> s <> [] ->
  exists acts' b d c, explicit a [45%N; c0] [] s acts = Ok (Pending (acts ++ acts') b) /\ is_action b d Switch /\ lookup [45%N; c] option_strings = Some b /\
    Forall2 doing (Said d0 :: ws) (acts' ++ [(b, [])]).
Proof.
  induction 1 as [|c d s ws L S IH]; intros a d0 c0 acts A N0 Hs; [congruence|].
  destruct (letter_action c d Switch L) as (b & B & Lk & N1 & N2 & _). cbn [explicit]. rewrite (switch_arity a d0 A). change (0 =? 0) with true. cbv iota.
  replace (c0 =? 45)%N with false by (symmetry; apply N.eqb_neq; exact N0). change (negb (str_eqb [] [])) with false. cbn [orb].
  replace (c =? 45)%N with false by (symmetry; apply N.eqb_neq; exact N1). rewrite Lk. destruct s as [|e s].
  - exists [(a, [])], b, d, c. split; [reflexivity|]. split; [exact B|]. split; [exact Lk|]. inversion S; subst. constructor; [apply do_said; exact A|]. constructor; [apply do_said; exact B|constructor].
  - assert (E61 : (e =? 61)%N = false).
    { inversion S as [|? d2 ? ? L2]; subst. destruct (letter_action e d2 Switch L2) as (_ & _ & _ & _ & K & _). apply N.eqb_neq, K. }
    rewrite E61. destruct (IH b d c (acts ++ [(a, [])]) B N1 ltac:(discriminate)) as (acts' & b' & d' & c' & E & B' & Lk' & F).
    exists ((a, []) :: acts'), b', d', c'. rewrite E, <- app_assoc. split; [reflexivity|]. split; [exact B'|]. split; [exact Lk'|].
    cbn [app]. constructor; [apply do_said; exact A|exact F].
Qed.
Lemma explicit_next s ws c d u : switches s ws -> letter c d u -> u <> Switch -> forall a d0 c0 acts, is_action a d0 Switch -> c0 <> 45%N ->
  exists acts' b, explicit a [45%N; c0] [] (s ++ [c]) acts = Ok (Pending (acts ++ acts') b) /\ is_action b d u /\ Forall2 doing (Said d0 :: ws) acts'.
Proof.
  intros S L U. induction S as [|c1 d1 s ws L1 S IH]; intros a d0 c0 acts A N0.
  - destruct (letter_action c d u L) as (b & B & Lk & N1 & N2 & _). cbn [app explicit]. rewrite (switch_arity a d0 A). change (0 =? 0) with true. cbv iota.
    replace (c0 =? 45)%N with false by (symmetry; apply N.eqb_neq; exact N0). change (negb (str_eqb [] [])) with false. cbn [orb].
    replace (c =? 45)%N with false by (symmetry; apply N.eqb_neq; exact N1). rewrite Lk. exists [(a, [])], b. split; [reflexivity|]. split; [exact B|]. constructor; [apply do_said; exact A|constructor].
  - destruct (letter_action c1 d1 Switch L1) as (b & B & Lk & N1 & N2 & _). cbn [app explicit]. rewrite (switch_arity a d0 A). change (0 =? 0) with true. cbv iota.
    replace (c0 =? 45)%N with false by (symmetry; apply N.eqb_neq; exact N0). change (negb (str_eqb [] [])) with false. cbn [orb].
    replace (c1 =? 45)%N with false by (symmetry; apply N.eqb_neq; exact N1). rewrite Lk.
    destruct (IH b d1 c1 (acts ++ [(a, [])]) B N1) as (acts' & b' & E & B' & F). destruct (s ++ [c]) as [|e r] eqn:Es; [destruct s; discriminate|].
    assert (E61 : (e =? 61)%N = false).
    { destruct S as [|c2 d2 s ws L2 S]; injection Es as <- _.
      - destruct (letter_action c d u L) as (_ & _ & _ & _ & K & _). apply N.eqb_neq, K.
      - destruct (letter_action c2 d2 Switch L2) as (_ & _ & _ & _ & K & _). apply N.eqb_neq, K. }
    rewrite E61, E, <- app_assoc. exists ((a, []) :: acts'), b'. split; [reflexivity|]. split; [exact B'|]. constructor; [apply do_said; exact A|exact F].
Qed.
Lemma explicit_joined s ws c d u t v : switches s ws -> letter c d u -> u <> Switch -> joined t v -> forall a d0 c0 acts, is_action a d0 Switch -> c0 <> 45%N ->
  exists acts', explicit a [45%N; c0] [] (s ++ c :: t) acts = Ok (Done (acts ++ acts') []) /\ Forall2 doing (Said d0 :: ws ++ [Gave d v]) acts'.
Proof.
  intros S L U J. induction S as [|c1 d1 s ws L1 S IH]; intros a d0 c0 acts A N0.
  - destruct (letter_action c d u L) as (b & B & Lk & N1 & N2 & _). cbn [app explicit]. rewrite (switch_arity a d0 A). change (0 =? 0) with true. cbv iota.
    replace (c0 =? 45)%N with false by (symmetry; apply N.eqb_neq; exact N0). change (negb (str_eqb [] [])) with false. cbn [orb].
    replace (c =? 45)%N with false by (symmetry; apply N.eqb_neq; exact N1). rewrite Lk. pose proof (other_arity b d u B U) as Ar.
    assert (Hx : forall sep, explicit b [45%N; c] sep v (acts ++ [(a, [])]) = Ok (Done ((acts ++ [(a, [])]) ++ [(b, [v])]) [])).
    { intros sep. destruct v; cbn [explicit]; rewrite Ar; reflexivity. }
    exists [(a, []); (b, [v])]. split.
    + destruct J as [-> |(-> & Hv & He)].
      * change (lit "=" ++ v) with (61%N :: v). cbv iota beta. change (61 =? 61)%N with true. cbv iota. rewrite (Hx (lit "=")), <- app_assoc. reflexivity.
      * destruct v as [|e v]; [congruence|]. destruct (e =? 61)%N eqn:E; [apply N.eqb_eq in E; subst e; exfalso; exact (He v eq_refl)|].
        rewrite (Hx []), <- app_assoc. reflexivity.
    + constructor; [apply do_said; exact A|]. constructor; [exact (do_gave d u b v B U)|constructor].
  - destruct (letter_action c1 d1 Switch L1) as (b & B & Lk & N1 & N2 & _). cbn [app explicit]. rewrite (switch_arity a d0 A). change (0 =? 0) with true. cbv iota.
    replace (c0 =? 45)%N with false by (symmetry; apply N.eqb_neq; exact N0). change (negb (str_eqb [] [])) with false. cbn [orb].
    replace (c1 =? 45)%N with false by (symmetry; apply N.eqb_neq; exact N1). rewrite Lk.
    destruct (IH b d1 c1 (acts ++ [(a, [])]) B N1) as (acts' & E & F). destruct (s ++ c :: t) as [|e r] eqn:Es; [destruct s; discriminate|].
    assert (E61 : (e =? 61)%N = false).
    { destruct S as [|c2 d2 s ws L2 S]; injection Es as <- _.
      - destruct (letter_action c d u L) as (_ & _ & _ & _ & K & _). apply N.eqb_neq, K.
      - destruct (letter_action c2 d2 Switch L2) as (_ & _ & _ & _ & K & _). apply N.eqb_neq, K. }
    rewrite E61, E, <- app_assoc. exists ((a, []) :: acts'). split; [reflexivity|]. constructor; [apply do_said; exact A|exact F].
Qed.

Lemma strings_shape x a : In (x, a) option_strings -> (exists t, x = 45%N :: 45%N :: t) \/ exists c, x = [45%N; c] /\ (lit "h" = [c] \/ exists d u, letter c d u).
Proof.
  intros H. unfold option_strings in H. apply in_flat_map in H. destruct H as (b & Hb & H). destruct Hb as [<- |Hb].
  - apply in_map_iff in H. destruct H as (o & X & H). injection X as -> _. destruct H as [<- |[<- |[]]].
    + right. exists 104%N. split; [reflexivity|left; reflexivity].
    + left. eexists. reflexivity.
  - rewrite actions_documented in Hb. apply in_map_iff in Hb. destruct Hb as ((((n & y) & z) & u) & <- & Hb).
    apply in_map_iff in H. destruct H as (o & X & H). injection X as -> _. cbn [action_of a_strings] in H. apply in_app_or in H.
    destruct H as [H|[<- |[]]]; [right|left; eexists; reflexivity].
    assert (Ey : y = EmptyString \/ exists c, y = String c EmptyString).
    { clear H. each Hb; first [left; reflexivity|right; eexists; reflexivity]. }
    destruct Ey as [-> |(c & ->)]; [destruct H|]. destruct H as [<- |[]]. exists (Ascii.N_of_ascii c). split; [reflexivity|right]. exists (lit n), u, n, (String c EmptyString), z. auto.
Qed.
Lemma no_letter_option c r : c <> 45%N -> (forall d u, ~ letter c d u) -> lit "h" <> [c] ->
  parse_optional (45%N :: c :: r) = Ok (if negative_number (45%N :: c :: r) then None else if cmem 32%N (45%N :: c :: r) then None else Some (mk_o None (45%N :: c :: r) None None)).
Proof.
  intros N1 NL Nh. set (s := 45%N :: c :: r).
  assert (Np : forall x a, In (x, a) option_strings -> forall t, x <> s ++ t /\ x <> [45%N; c] /\ x <> [45%N] /\ x <> []).
  { intros x a I t. destruct (strings_shape x a I) as [(t' & ->)|(c' & -> & H)].
    - unfold s. split; [|split; [|split; discriminate]]; intros E; injection E as E; congruence.
    - unfold s. split; [|split; [|split; discriminate]]; intros E; cbn [app] in E; injection E as ->; destruct H as [H|(d & u & H)]; [exact (Nh H)|exact (NL d u H)|exact (Nh H)|exact (NL d u H)]. }
  assert (Lk : forall p rest, s = p ++ rest -> lookup p option_strings = None).
  { intros p rest Es. destruct (lookup p option_strings) as [a|] eqn:E; [exfalso|reflexivity].
    assert (I : In (p, a) option_strings).
    { revert E. generalize option_strings. clear. induction l as [|[x b] l IH]; [discriminate|]. cbn [lookup]. destruct (str_eqb p x) eqn:E; [|intros H; right; exact (IH H)].
      apply str_eqb_eq in E. subst x. intros H. injection H as ->. left. reflexivity. }
    destruct (strings_shape p a I) as [(t' & ->)|(c' & -> & H)].
    - unfold s in Es. injection Es as Es _. congruence.
    - unfold s in Es. injection Es as -> _. destruct H as [H|(d & u & H)]; [exact (Nh H)|exact (NL d u H)]. }
  assert (Gt : get_option_tuples s = []).
  { unfold get_option_tuples, s. replace (c =? 45)%N with false by (symmetry; apply N.eqb_neq; exact N1). fold s. revert Np. generalize option_strings. intros l Np.
    induction l as [|[x a] l IH]; [reflexivity|]. cbn [flat_map fst snd]. destruct (Np x a (or_introl eq_refl) []) as (_ & K & _).
    destruct (str_eqb x [45%N; c]) eqn:E1; [apply str_eqb_eq in E1; congruence|]. destruct (startswith s x) eqn:E2; [|apply IH; intros y b I; apply (Np y b); right; exact I].
    exfalso. assert (X : exists t, x = s ++ t).
    { clear - E2. revert x E2. induction s as [|d s IH]; intros x E2; [exists x; reflexivity|]. destruct x as [|e x]; [discriminate|]. cbn [startswith] in E2.
      apply andb_true_iff in E2. destruct E2 as [H1 H2]. apply N.eqb_eq in H1. subst e. destruct (IH x H2) as (t & ->). exists t. reflexivity. }
    destruct X as (t & ->). exact (proj1 (Np (s ++ t) a (or_introl eq_refl) t) eq_refl). }
  pose proof (Lk s [] (eq_sym (app_nil_r s))) as L1.
  assert (L2 : lookup (fst (partition_eq s)) option_strings = None).
  { clearbody s. clear - Lk. assert (P : exists rest, s = fst (partition_eq s) ++ rest).
    { clear. induction s as [|c s (rest & IH)]; [exists []; reflexivity|]. cbn [partition_eq]. destruct (c =? 61)%N; [eexists; reflexivity|].
      destruct (partition_eq s) as [p o]. cbn [fst] in *. exists rest. rewrite IH at 1. reflexivity. }
    destruct P as (rest & P). exact (Lk _ rest P). }
  unfold parse_optional. fold s. rewrite L1, Gt. unfold s at 1. change (negb (45 =? 45)%N) with false. cbv iota. destruct (partition_eq s) as [p o]. cbn [fst] in L2. rewrite L2. unfold s.
  destruct o; destruct (negative_number (45%N :: c :: r)), (cmem 32%N (45%N :: c :: r)); reflexivity.
Qed.
Lemma digits_spec r : digits r <-> forallb is_digit r = true.
Proof.
  unfold digits. rewrite forallb_forall. split; intros H c I; specialize (H c I); unfold is_digit in *; lia.
Qed.
Lemma negative_spec v : negative_number v = true <-> negative v.
Proof.
  destruct v as [|c r]; [split; [discriminate|intros [(d & E & _)|(d & e & E & _)]; discriminate E]|].
  assert (G : forall r : str, (fix go (u : str) : bool := match u with [] => false | x :: v => if (x =? 46)%N then match v with [] => false | _ => forallb is_digit v end else is_digit x && go v end) r = true <->
    exists d e, r = d ++ lit "." ++ e /\ e <> [] /\ digits d /\ digits e).
  { clear. induction r as [|x r IH].
    - split; [discriminate|]. intros (d & e & E & _). destruct d; discriminate E.
    - destruct (x =? 46)%N eqn:Ex.
      + apply N.eqb_eq in Ex. subst x. destruct r as [|y r].
        * split; [discriminate|]. intros (d & e & E & Ne & Hd & _). destruct d as [|z d]; [injection E as E; destruct e; [congruence|discriminate E]|].
          injection E as <- E. destruct d; discriminate E.
        * rewrite <- digits_spec. split.
          -- intros H. exists [], (y :: r). split; [reflexivity|]. split; [discriminate|]. split; [intros c []|exact H].
          -- intros (d & e & E & Ne & Hd & He). destruct d as [|z d]; [injection E as E; rewrite E; exact He|]. injection E as <- E. exfalso. specialize (Hd 46%N (or_introl eq_refl)). lia.
      + rewrite andb_true_iff, IH. split.
        * intros [H1 (d & e & -> & Ne & Hd & He)]. exists (x :: d), e. split; [reflexivity|]. split; [exact Ne|]. split; [|exact He].
          intros c [<- |I]; [unfold is_digit in H1; lia|exact (Hd c I)].
        * intros (d & e & E & Ne & Hd & He). destruct d as [|z d]; [injection E as -> _; discriminate Ex|]. injection E as <- E. split.
          -- specialize (Hd x (or_introl eq_refl)). unfold is_digit. lia.
          -- exists d, e. split; [exact E|]. split; [exact Ne|]. split; [intros c I; apply Hd; right; exact I|exact He]. }
  cbn [negative_number]. rewrite andb_true_iff, N.eqb_eq. unfold negative. change (lit "-") with [45%N]. cbn [app]. split.
  - intros [-> H]. destruct r as [|y r]; [discriminate H|]. destruct (forallb is_digit (y :: r)) eqn:F.
    + left. exists (y :: r). split; [reflexivity|]. split; [discriminate|]. apply digits_spec, F.
    + right. destruct (proj1 (G (y :: r)) H) as (d & e & E & Ne & Hd & He). exists d, e. rewrite E. auto.
  - intros [(d & E & Nd & Hd)|(d & e & E & Ne & Hd & He)]; injection E as -> ->; (split; [reflexivity|]).
    + destruct d as [|y d]; [congruence|]. apply digits_spec in Hd. rewrite Hd. reflexivity.
    + assert (X : exists y r, d ++ lit "." ++ e = y :: r) by (destruct d as [|y0 d0]; [exists 46%N, e|exists y0, (d0 ++ lit "." ++ e)]; reflexivity). destruct X as (y & r & X).
      match goal with |- context [match ?u with [] => false | _ => _ end = true] => change u with (d ++ lit "." ++ e) end. rewrite X. destruct (forallb is_digit (y :: r)); [reflexivity|].
      refine (proj2 (G (y :: r)) _). exists d, e. auto.
Qed.
Lemma digit_no_letter c : (48 <= c <= 57)%N \/ c = 46%N -> c <> 45%N /\ (forall d u, ~ letter c d u) /\ lit "h" <> [c].
Proof.
  intros H. split; [lia|]. split; [|intros E; injection E as E; lia]. intros d u (n & x & y & I & _ & E).
  each I; try (discriminate E); injection E as E; lia.
Qed.
Lemma plain_parse v : plain v -> str_eqb v (lit "--") = false /\ parse_optional v = Ok None.
Proof.
  assert (Two : forall c r, c <> 45%N -> str_eqb (45%N :: c :: r) (lit "--") = false).
  { intros c r H. destruct (str_eqb (45%N :: c :: r) (lit "--")) eqn:E; [|reflexivity]. apply str_eqb_eq in E. injection E as E _. congruence. }
  intros [-> |[H|[H|[(c & r & -> & N1 & NL & Nh) I]]]].
  - vm_compute; split; reflexivity.
  - destruct v as [|c v]; [split; reflexivity|].
    assert (Hc : c <> 45%N) by (intros ->; exact (H v eq_refl)). split.
    + destruct (str_eqb (c :: v) (lit "--")) eqn:E; [|reflexivity]. apply str_eqb_eq in E. injection E as E _. congruence.
    + unfold parse_optional. replace (c =? 45)%N with false by (symmetry; apply N.eqb_neq; exact Hc). reflexivity.
  - assert (X : exists c r, v = 45%N :: c :: r /\ ((48 <= c <= 57)%N \/ c = 46%N)).
    { destruct H as [(d & -> & Nd & Hd)|(d & e & -> & Ne & Hd & He)].
      - destruct d as [|c d]; [congruence|]. exists c, d. split; [reflexivity|]. left. apply Hd. left. reflexivity.
      - destruct d as [|c d]; [exists 46%N, e; auto|]. exists c, (d ++ lit "." ++ e). split; [reflexivity|]. left. apply Hd. left. reflexivity. }
    destruct X as (c & r & -> & X). destruct (digit_no_letter c X) as (N1 & NL & Nh). split; [exact (Two c r N1)|].
    rewrite (no_letter_option c r N1 NL Nh), (proj2 (negative_spec _) H). reflexivity.
  - split; [exact (Two c r N1)|]. rewrite (no_letter_option c r N1 NL Nh). apply cmem_In in I. rewrite I. destruct (negative_number _); reflexivity.
Qed.
Lemma plain_mark v r l : plain v -> marks r = Ok l -> marks (v :: r) = Ok ((v, MA) :: l).
Proof.
  intros P M. cbn [marks]. destruct (plain_parse v P) as [-> ->]. cbn [bind]. rewrite M. reflexivity.
Qed.
Definition runs_as (g : list str) (ws : list word) : Prop :=
  forall r l, marks r = Ok l -> exists s o vs acts, marks (g ++ r) = Ok ((s, MO o) :: vs ++ l) /\ Forall2 doing ws acts /\
    (forall l', consume_optional o s (vs ++ l') = Ok (acts, [], l')).
Lemma option_mark s o r l : str_eqb s (lit "--") = false -> parse_optional s = Ok (Some o) -> marks r = Ok l -> marks (s :: r) = Ok ((s, MO o) :: l).
Proof. intros E P M. cbn [marks]. rewrite E, P. cbn [bind]. rewrite M. reflexivity. Qed.
Lemma dash_letter c s : c <> 45%N -> str_eqb (lit "-" ++ c :: s) (lit "--") = false.
Proof. intros H. destruct (str_eqb (lit "-" ++ c :: s) (lit "--")) eqn:E; [|reflexivity]. apply str_eqb_eq in E. injection E as E _. congruence. Qed.
Lemma letters_head s c t d u ws : switches s ws -> letter c d u -> exists e r, s ++ c :: t = e :: r /\ e <> 61%N.
Proof.
  intros [|c1 d1 s' ws' L1 S] L.
  - exists c, t. split; [reflexivity|]. destruct (letter_action c d u L) as (_ & _ & _ & _ & K & _). exact K.
  - eexists _, _. split; [reflexivity|]. destruct (letter_action c1 d1 Switch L1) as (_ & _ & _ & _ & K & _). exact K.
Qed.
Lemma group_runs g ws : group g ws -> runs_as g ws.
Proof.
  intros [o d L|o d u v L U P|o d u v L U|s ws' S Hs|s ws' c d u v S L U P|s ws' c d u t v S L U J] r l M.
  - destruct (long_action o d Switch L) as (a & A & E & P & _). exists o, (mk_o (Some a) o None None), [], [(a, [])].
    split; [exact (option_mark o _ r l E P M)|]. split; [constructor; [apply do_said; exact A|constructor]|]. intros l'. unfold consume_optional. cbn [o_action o_arg bind].
    rewrite (switch_arity a d A). reflexivity.
  - destruct (long_action o d u L) as (a & A & E & Po & _). exists o, (mk_o (Some a) o None None), [(v, MA)], [(a, [v])].
    split; [exact (option_mark o _ _ _ E Po (plain_mark v r l P M))|]. split; [constructor; [exact (do_gave d u a v A U)|constructor]|].
    intros l'. unfold consume_optional. cbn [o_action o_arg bind app]. rewrite (other_arity a d u A U). reflexivity.
  - destruct (long_action o d u L) as (a & A & _ & _ & X). destruct (X v) as [E Po]. exists (o ++ lit "=" ++ v), (mk_o (Some a) o (Some (lit "=")) (Some v)), [], [(a, [v])].
    split; [exact (option_mark _ _ _ _ E Po M)|]. split; [constructor; [exact (do_gave d u a v A U)|constructor]|].
    intros l'. unfold consume_optional. cbn [o_action o_arg o_sep o_string app].
    destruct v as [|c v]; cbn [explicit]; rewrite (other_arity a d u A U); reflexivity.
  - destruct S as [|c d s ws' L S]; [congruence|]. destruct (letter_action c d Switch L) as (a & A & Lk & N1 & N2 & P0 & _ & P2).
    destruct s as [|e s].
    + inversion S; subst. exists [45%N; c], (mk_o (Some a) [45%N; c] None None), [], [(a, [])].
      split; [exact (option_mark _ _ r l (dash_letter c [] N1) P0 M)|]. split; [constructor; [apply do_said; exact A|constructor]|]. intros l'. unfold consume_optional. cbn [o_action o_arg bind].
      rewrite (switch_arity a d A). reflexivity.
    + destruct (explicit_switches _ _ S a d c [] A N1 ltac:(discriminate)) as (acts & b & db & cb & E & B & _ & F).
      assert (He : e <> 61%N). { inversion S as [|? d2 ? ? L2]; subst. destruct (letter_action e d2 Switch L2) as (_ & _ & _ & _ & K & _). exact K. }
      exists (45%N :: c :: e :: s), (mk_o (Some a) [45%N; c] (Some []) (Some (e :: s))), [], (acts ++ [(b, [])]).
      split; [exact (option_mark _ _ r l (dash_letter c (e :: s) N1) (P2 e s He) M)|]. split; [exact F|]. intros l'. unfold consume_optional. cbn [o_action o_arg o_sep o_string].
      rewrite E. cbn [bind app]. rewrite (switch_arity b db B). reflexivity.
  - pose proof (plain_mark v r l P M) as Mv. destruct S as [|c1 d1 s ws' L1 S].
    + destruct (letter_action c d u L) as (a & A & Lk & N1 & N2 & P0 & _ & _). exists [45%N; c], (mk_o (Some a) [45%N; c] None None), [(v, MA)], [(a, [v])].
      split; [exact (option_mark _ _ _ _ (dash_letter c [] N1) P0 Mv)|]. split; [constructor; [exact (do_gave d u a v A U)|constructor]|].
      intros l'. unfold consume_optional. cbn [o_action o_arg bind app]. rewrite (other_arity a d u A U). reflexivity.
    + destruct (letter_action c1 d1 Switch L1) as (a & A & Lk & N1 & N2 & P0 & _ & P2).
      destruct (letters_head s c [] d u ws' S L) as (e & t & Et & He). destruct (explicit_next s ws' c d u S L U a d1 c1 [] A N1) as (acts & b & E & B & F).
      exists (45%N :: c1 :: e :: t), (mk_o (Some a) [45%N; c1] (Some []) (Some (e :: t))), [(v, MA)], (acts ++ [(b, [v])]).
      change (lit "-" ++ (c1 :: s) ++ [c]) with (45%N :: c1 :: (s ++ [c])). rewrite Et in *.
      split; [exact (option_mark _ _ _ _ (dash_letter c1 (e :: t) N1) (P2 e t He) Mv)|].
      split; [apply (Forall2_app F); constructor; [exact (do_gave d u b v B U)|constructor]|].
      intros l'. unfold consume_optional. cbn [o_action o_arg o_sep o_string]. rewrite E. cbn [bind app]. rewrite (other_arity b d u B U). reflexivity.
  - destruct S as [|c1 d1 s ws' L1 S].
    + destruct (letter_action c d u L) as (a & A & Lk & N1 & N2 & P0 & P1 & P2). pose proof (other_arity a d u A U) as Ar.
      assert (Hx : forall sep l', consume_optional (mk_o (Some a) [45%N; c] (Some sep) (Some v)) (45%N :: c :: t) l' = Ok ([(a, [v])], [], l')).
      { intros sep l'. unfold consume_optional. cbn [o_action o_arg o_sep o_string]. destruct v as [|x v]; cbn [explicit]; rewrite Ar; reflexivity. }
      destruct J as [-> |(-> & Hv & He)].
      * exists (45%N :: c :: 61%N :: v), (mk_o (Some a) [45%N; c] (Some (lit "=")) (Some v)), [], [(a, [v])].
        split; [exact (option_mark _ _ _ _ (dash_letter c (61%N :: v) N1) (P1 v) M)|]. split; [constructor; [exact (do_gave d u a v A U)|constructor]|].
        intros l'. exact (Hx (lit "=") l').
      * destruct v as [|e v]; [congruence|]. assert (He' : e <> 61%N) by (intros ->; exact (He v eq_refl)).
        exists (45%N :: c :: e :: v), (mk_o (Some a) [45%N; c] (Some []) (Some (e :: v))), [], [(a, [e :: v])].
        split; [exact (option_mark _ _ _ _ (dash_letter c (e :: v) N1) (P2 e v He') M)|]. split; [constructor; [exact (do_gave d u a (e :: v) A U)|constructor]|].
        intros l'. exact (Hx [] l').
    + destruct (letter_action c1 d1 Switch L1) as (a & A & Lk & N1 & N2 & P0 & _ & P2).
      destruct (letters_head s c t d u ws' S L) as (e & t' & Et & He). destruct (explicit_joined s ws' c d u t v S L U J a d1 c1 [] A N1) as (acts & E & F).
      exists (45%N :: c1 :: e :: t'), (mk_o (Some a) [45%N; c1] (Some []) (Some (e :: t'))), [], acts.
      change (lit "-" ++ (c1 :: s) ++ c :: t) with (45%N :: c1 :: (s ++ c :: t)). rewrite Et in *.
      split; [exact (option_mark _ _ _ _ (dash_letter c1 (e :: t') N1) (P2 e t' He) M)|]. split; [exact F|].
      intros l'. unfold consume_optional. cbn [o_action o_arg o_sep o_string]. rewrite E. reflexivity.
Qed.

(** * The loop *)
Lemma foldM_app {A B} (f : A -> B -> res A) l l' a : foldM f (l ++ l') a = (x <- foldM f l a; foldM f l' x).
Proof. revert a. induction l as [|b l IH]; intros a; [reflexivity|]. cbn [app foldM]. destruct (f a b); [apply IH|reflexivity]. Qed.
Lemma groups_run gs ws : groups gs ws -> forall r l, marks r = Ok l -> exists gm k acts, marks (gs ++ r) = Ok (gm ++ l) /\ k <= List.length gm /\
  (gs <> [] -> exists s o gm', gm = (s, MO o) :: gm') /\ Forall2 doing ws acts /\
  forall free ns ns' ex fuel l', foldM take_action acts ns = Ok ns' -> loop (k + fuel) free (gm ++ l') ns ex = loop fuel free l' ns' ex.
Proof.
  induction 1 as [|g ws r0 rs G Gs IH]; intros r l M.
  - exists [], 0, []. split; [exact M|]. split; [apply le_n|]. split; [intros H; exfalso; exact (H eq_refl)|]. split; [constructor|]. intros free ns ns' ex fuel l' E. injection E as <-. reflexivity.
  - destruct (IH r l M) as (gm & k & acts & M1 & K & _ & F & Run). destruct (group_runs g ws G (r0 ++ r) (gm ++ l) M1) as (s & o & vs & a1 & M2 & F1 & C).
    exists ((s, MO o) :: vs ++ gm), (Datatypes.S k), (a1 ++ acts). rewrite <- app_assoc. split; [rewrite M2, <- app_comm_cons, <- app_assoc; reflexivity|].
    split; [cbn [List.length]; rewrite app_length; lia|]. split; [intros _; eexists _, _, _; reflexivity|]. split; [exact (Forall2_app F1 F)|].
    intros free ns ns' ex fuel l' E. rewrite foldM_app in E. destruct (foldM take_action a1 ns) as [x|] eqn:E1; [|discriminate E]. cbn [bind] in E.
    cbn [plus loop app existsb is_option snd orb]. rewrite <- app_assoc, C. cbn [bind]. rewrite E1. cbn [bind]. rewrite app_nil_r. apply Run, E.
Qed.
Lemma names_marks names r l : Forall plain names -> marks r = Ok l -> marks (names ++ r) = Ok (map (fun n => (n, MA)) names ++ l).
Proof. induction 1 as [|v names P _ IH]; intros M; [exact M|]. cbn [app map]. exact (plain_mark v _ _ P (IH M)). Qed.
Lemma names_run names l : match l with [] => True | x :: _ => is_option x = true end -> names_before (map (fun n => (n, MA)) names ++ l) = (names, l).
Proof.
  intros H. induction names as [|n names IH]; cbn [map app names_before].
  - destruct l as [|x l]; [reflexivity|]. cbn [names_before]. rewrite H. reflexivity.
  - unfold is_option at 1. cbn [snd fst]. rewrite IH. reflexivity.
Qed.
Lemma no_dashes names : Forall plain names -> drop_dashes names = names.
Proof.
  induction 1 as [|v names P _ IH]; [reflexivity|]. cbn [drop_dashes]. rewrite (proj1 (plain_parse v P)), IH. reflexivity.
Qed.
Lemma not_option names : existsb is_option (map (fun n => (n, MA)) names) = false.
Proof. induction names as [|n names IH]; [reflexivity|exact IH]. Qed.
Lemma names_fst names : map fst (map (fun n : str => (n, MA)) names) = names.
Proof. rewrite map_map. apply map_id. Qed.

(** * The values *)
Lemma dests_distinct : NoDup (map a_dest named_actions).
Proof.
  assert (H : forall l, (fix nd (l : list str) : bool := match l with [] => true | x :: r => negb (smem x r) && nd r end) l = true -> NoDup l).
  { induction l as [|x l IH]; intros H; [constructor|]. apply andb_true_iff in H. destruct H as [H1 H2]. constructor; [|exact (IH H2)].
    intros I. apply smem_In in I. rewrite I in H1. discriminate. }
  apply H. vm_compute. reflexivity.
Qed.
Lemma same_action a b d u u' : is_action a d u -> is_action b d u' -> a = b /\ u = u'.
Proof.
  intros (A1 & A2 & A3) (B1 & B2 & B3). assert (E : a = b).
  { clear A3 B3. pose proof dests_distinct as D. rewrite <- B2 in A2. revert D A1 B1. induction named_actions as [|x l IH]; [intros _ []|].
    cbn [map]. intros D A1 B1. inversion D as [|? ? D1 D2]; subst. destruct A1 as [-> |A1], B1 as [-> |B1].
    - reflexivity.
    - exfalso. apply D1. rewrite A2. apply in_map, B1.
    - exfalso. apply D1. rewrite <- A2. apply in_map, A1.
    - exact (IH D2 A1 B1). }
  split; [exact E|]. subst b. rewrite A3 in B3. destruct u, u'; first [reflexivity|discriminate B3].
Qed.
Definition said (d : str) (w : word) : bool := match w with Said d' => str_eqb d' d | _ => false end.
Definition upd (u : use) (d : str) (ws : list word) (x : val) : val :=
  match u with
  | Switch => if existsb (said d) ws then VBool true else x
  | Setting => fold_left (fun _ v => VStr v) (given d ws) x
  | Collected => match given d ws with [] => x | l => VList (match x with VList l0 => l0 | _ => [] end ++ map VStr l) end
  end.
Lemma upd_app u d ws1 ws2 x : upd u d (ws1 ++ ws2) x = upd u d ws2 (upd u d ws1 x).
Proof.
  destruct u; unfold upd.
  - rewrite existsb_app. destruct (existsb (said d) ws1), (existsb (said d) ws2); reflexivity.
  - unfold given. rewrite flat_map_app, fold_left_app. reflexivity.
  - unfold given. rewrite flat_map_app. fold (given d ws1) (given d ws2). destruct (given d ws1) as [|a l1]; cbn [app]; [reflexivity|].
    destruct (given d ws2) as [|b l2]; [rewrite app_nil_r; reflexivity|]. f_equal. rewrite <- app_assoc, <- map_app. reflexivity.
Qed.
Lemma doing_step w t d u a x ns : doing w t -> is_action a d u -> dget (ns : dict) (KS d) = Some x -> (forall k, In k named_actions -> dget ns (KS (a_dest k)) <> None) ->
  exists ns', take_action ns t = Ok ns' /\ dget ns' (KS d) = Some (upd u d [w] x) /\ dkeys ns' = dkeys ns /\ dget ns' k_filename = dget ns k_filename.
Proof.
  intros D A G All.
  assert (Keep : forall b v, In b named_actions -> dkeys (dset ns (KS (a_dest b)) v) = dkeys ns /\ dget (dset ns (KS (a_dest b)) v) k_filename = dget ns k_filename).
  { intros b v Hb. split.
    - rewrite dkeys_dset. unfold dmem. destruct (dget ns (KS (a_dest b))) eqn:E; [reflexivity|]. exfalso. exact (All b Hb E).
    - apply dget_dset_ne. intros E. apply (f_equal (fun k => match k with KS s => s | KB s => s end)) in E. revert Hb. rewrite actions_documented. intros Hb.
      apply in_map_iff in Hb. destruct Hb as ((((n & x0) & y) & u0) & <- & Hb). each Hb; discriminate E. }
  destruct D as [d' b B|d' u' b v B U].
  - pose proof B as (B1 & B2 & B3). destruct (Keep b (VBool true) B1) as [K1 K2]. exists (dset ns (KS (a_dest b)) (VBool true)).
    split; [unfold take_action; rewrite B3; reflexivity|]. split; [|split; assumption]. rewrite B2. destruct (str_eqb d' d) eqn:E.
    + apply str_eqb_eq in E. rewrite E in B |- *. destruct (same_action b a d Switch u B A) as [_ <-]. rewrite dget_dset_eq.
      unfold upd. cbn [existsb said]. rewrite str_eqb_refl. reflexivity.
    + rewrite dget_dset_ne by (intros X; injection X as ->; rewrite str_eqb_refl in E; discriminate). rewrite G. f_equal.
      destruct u; unfold upd; cbn [existsb said given flat_map app]; [rewrite E|..]; reflexivity.
  - pose proof B as (B1 & B2 & B3).
    assert (Hv : exists y, take_action ns (b, [v]) = Ok (dset ns (KS d') y) /\ (d' = d -> y = upd u' d' [Gave d' v] x)).
    { unfold take_action. rewrite B3, B2. destruct u'; [congruence| |].
      - exists (VStr v). split; [reflexivity|]. intros _. unfold upd, given. cbn [flat_map]. rewrite str_eqb_refl. reflexivity.
      - exists (VList (match dget ns (KS d') with Some (VList l) => l | _ => [] end ++ [VStr v])). split; [reflexivity|]. intros ->. rewrite G.
        unfold upd, given. cbn [flat_map]. rewrite str_eqb_refl. cbn [app map]. destruct x; reflexivity. }
    destruct Hv as (y & T & Y). exists (dset ns (KS d') y). split; [exact T|]. rewrite <- B2 in *. destruct (Keep b y B1) as [K1 K2]. split; [|split; assumption].
    destruct (str_eqb (a_dest b) d) eqn:E.
    + apply str_eqb_eq in E. destruct (same_action b a d u' u) as [_ <-]; [split; [exact B1|split; [exact E|exact B3]]|exact A|].
      rewrite E, dget_dset_eq, <- E, (Y E). reflexivity.
    + rewrite dget_dset_ne by (intros X; injection X as X; rewrite X, str_eqb_refl in E; discriminate). rewrite G. f_equal.
      destruct u; unfold upd; cbn [existsb said given flat_map app]; try rewrite E; reflexivity.
Qed.
Lemma all_keys (ns : dict) : (forall k, In k named_actions -> dget ns (KS (a_dest k)) <> None) <-> (forall k, In k named_actions -> In (KS (a_dest k)) (dkeys ns)).
Proof.
  split; intros H k Hk; specialize (H k Hk).
  - destruct (dget ns (KS (a_dest k))) as [v|] eqn:E; [|congruence]. exact (dget_Some_key _ _ _ E).
  - destruct (dget_key_Some ns _ H) as (v & ->). discriminate.
Qed.
Lemma doing_all ws acts : Forall2 doing ws acts -> forall ns : dict, (forall k, In k named_actions -> In (KS (a_dest k)) (dkeys ns)) ->
  exists ns', foldM take_action acts ns = Ok ns' /\ dkeys ns' = dkeys ns /\ dget ns' k_filename = dget ns k_filename /\
    forall a d u x, is_action a d u -> dget ns (KS d) = Some x -> dget ns' (KS d) = Some (upd u d ws x).
Proof.
  induction 1 as [|w t ws acts D F IH]; intros ns All.
  - exists ns. split; [reflexivity|]. split; [reflexivity|]. split; [reflexivity|]. intros a d u x _ G. rewrite G. destruct u; reflexivity.
  - pose proof (proj2 (all_keys ns) All) as All'.
    assert (X : exists a d u x, is_action a d u /\ dget ns (KS d) = Some x).
    { destruct D as [d b B|d u b v B _]; pose proof B as (B1 & B2 & _); specialize (All' b B1); rewrite B2 in All';
        (destruct (dget ns (KS d)) as [x|] eqn:E; [|congruence]); eauto 6. }
    destruct X as (a0 & d0 & u0 & x0 & A0 & G0). destruct (doing_step w t d0 u0 a0 x0 ns D A0 G0 All') as (ns1 & T & _ & K & Fn).
    destruct (IH ns1) as (ns2 & T2 & K2 & Fn2 & V); [rewrite K; exact All|]. exists ns2. cbn [foldM]. rewrite T. cbn [bind]. split; [exact T2|].
    split; [congruence|]. split; [congruence|]. intros a d u x A G. destruct (doing_step w t d u a x ns D A G All') as (ns1' & T' & G' & _).
    rewrite T in T'. injection T' as <-. rewrite (V a d u _ A G'). change (w :: ws) with ([w] ++ ws). rewrite upd_app. reflexivity.
Qed.

Lemma default_values d u a : is_action a d u -> dget defaults (KS d) = Some (default_of d).
Proof.
  intros (A & <- & _). rewrite actions_documented in A. apply in_map_iff in A. destruct A as ((((n & x) & y) & u0) & <- & H).
  each H; vm_compute; reflexivity.
Qed.
Lemma default_keys k : In k named_actions -> In (KS (a_dest k)) (dkeys defaults).
Proof.
  intros H. change (In (KS (a_dest k)) (k_filename :: map fst (map (fun a => (KS (a_dest a), a_default a)) named_actions))).
  rewrite map_map. right. exact (in_map (fun a => KS (a_dest a)) _ _ H).
Qed.
Lemma known_action d u : option_is d u <-> exists a, is_action a d u.
Proof.
  split.
  - intros (n & x & y & H & ->). exists (action_of (n, x, y, u)). split; [rewrite actions_documented; apply in_map, H|split; reflexivity].
  - intros (a & A & <- & K). rewrite actions_documented in A. apply in_map_iff in A. destruct A as ((((n & x) & y) & u0) & <- & H).
    exists n, x, y. split; [|reflexivity]. replace u with u0; [exact H|]. cbn [action_of a_kind] in K. destruct u, u0; first [reflexivity|discriminate K].
Qed.
Lemma upd_value d u ws : option_value d u ws (upd u d ws (default_of d)) \/ (u <> Switch /\ default_of d <> VNone).
Proof.
  destruct u; unfold option_value, upd.
  - left. destruct (existsb (said d) ws) eqn:E.
    + left. split; [|reflexivity]. apply existsb_exists in E. destruct E as ([d'|d' v] & I & E); [|discriminate]. apply str_eqb_eq in E. subst. exact I.
    + right. split.
      * intros I. assert (X : existsb (said d) ws = true) by (apply existsb_exists; exists (Said d); split; [exact I|apply str_eqb_refl]). congruence.
      * unfold default_of. destruct (str_eqb d (lit "output_input_string")) eqn:K; [left; apply str_eqb_eq in K; auto|right].
        split; [|reflexivity]. intros ->. rewrite str_eqb_refl in K. discriminate.
  - destruct (default_of d) eqn:D; try (right; split; discriminate). left. destruct (given d ws) as [|v l] using rev_ind; [left; auto|].
    right. exists l, v. split; [reflexivity|]. rewrite fold_left_app. reflexivity.
  - destruct (default_of d) eqn:D; try (right; split; discriminate). left. destruct (given d ws) as [|v l]; [left; auto|right]. split; [discriminate|reflexivity].
Qed.
Lemma upd_option d u ws : option_is d u -> option_value d u ws (upd u d ws (default_of d)).
Proof.
  intros (n & x & y & H & ->). destruct (upd_value (lit n) u ws) as [V|[V1 V2]]; [exact V|exfalso].
  each H; first [congruence|apply V2; reflexivity].
Qed.
Lemma groups_app a ws1 b ws2 : groups a ws1 -> groups b ws2 -> groups (a ++ b) (ws1 ++ ws2).
Proof. induction 1 as [|g ws r rs G _ IH]; intros H; [exact H|]. rewrite <- !app_assoc. constructor; [exact G|exact (IH H)]. Qed.

Definition well_read (names : list str) (ws : list word) (d : dict) : Prop :=
  dget d k_filename = Some (VList (map VStr names)) /\
  (forall k u, option_is k u -> exists v, dget d (KS k) = Some v /\ option_value k u ws v) /\
  (forall k, In k (dkeys d) -> k = k_filename \/ exists o u, option_is o u /\ k = KS o).
Lemma read_keys (d : dict) : dkeys d = dkeys defaults -> forall k, In k (dkeys d) -> k = k_filename \/ exists o u, option_is o u /\ k = KS o.
Proof.
  intros -> k H. change (In k (k_filename :: map fst (map (fun a => (KS (a_dest a), a_default a)) named_actions))) in H. rewrite map_map in H.
  destruct H as [<- |H]; [left; reflexivity|right].
  apply in_map_iff in H. destruct H as (a & <- & H). rewrite actions_documented in H. apply in_map_iff in H.
  destruct H as ((((n & x) & y) & u) & <- & H). exists (lit n), u. split; [exists n, x, y; auto|reflexivity].
Qed.
Lemma name_not_option a : In a named_actions -> KS (a_dest a) <> k_filename.
Proof.
  rewrite actions_documented. intros Hb E. apply (f_equal (fun k => match k with KS s => s | KB s => s end)) in E.
  apply in_map_iff in Hb. destruct Hb as ((((n & x0) & y) & u0) & <- & Hb). each Hb; discriminate E.
Qed.
Lemma set_names (ns : dict) names a d u : dkeys ns = dkeys defaults -> Forall plain names -> is_action a d u ->
  dkeys (set_filename ns names) = dkeys defaults /\ dget (set_filename ns names) k_filename = Some (VList (map VStr names)) /\
  dget (set_filename ns names) (KS d) = dget ns (KS d).
Proof.
  intros K P (A1 & A2 & _). unfold set_filename. rewrite (no_dashes names P). split; [|split].
  - rewrite dkeys_dset. unfold dmem. destruct (dget ns k_filename) eqn:E; [exact K|]. exfalso. apply dget_None in E. apply E. rewrite K. left. reflexivity.
  - apply dget_dset_eq.
  - apply dget_dset_ne. rewrite <- A2. exact (name_not_option a A1).
Qed.
Lemma loop_end free names ns fuel : loop (Datatypes.S fuel) free (map (fun n => (n, MA)) names) ns [] =
  if free then Ok (set_filename ns names, []) else Ok (ns, names).
Proof. cbn [loop]. rewrite not_option, names_fst. reflexivity. Qed.
Lemma some_action : exists a d u, is_action a d u.
Proof.
  assert (H : option_is (lit "json") Switch) by (exists "json"%string, "j"%string, "json"%string; split; [vm_compute; tauto|reflexivity]).
  destruct (proj1 (known_action _ _) H) as (a & A). eauto.
Qed.

(** options before and after the names: each option has the value the command line gives it, and no other option is set *)
Theorem C104_options before names after ws1 ws2 : groups before ws1 -> Forall plain names -> groups after ws2 ->
  exists d, parse_args (before ++ names ++ after) = Ok d /\ well_read names (ws1 ++ ws2) d.
Proof.
  intros G1 P G2. destruct some_action as (a0 & d0 & u0 & A0).
  assert (Ends : forall gs ws nm, groups gs ws -> Forall plain nm -> exists d, parse_args (gs ++ nm) = Ok d /\ well_read nm ws d).
  { clear - A0. intros gs ws nm G P. pose proof (names_marks nm [] [] P eq_refl) as M. rewrite !app_nil_r in M.
    destruct (groups_run gs ws G nm _ M) as (gm & k & acts & M1 & K & _ & F & Run).
    destruct (doing_all ws acts F defaults default_keys) as (ns & E & Ks & _ & V). destruct (set_names ns nm a0 d0 u0 Ks P A0) as (X1 & X2 & _).
    exists (set_filename ns nm). split.
    - unfold parse_args. rewrite M1. cbn [bind]. rewrite app_length.
      replace (Datatypes.S (List.length gm + List.length (map (fun n => (n, MA)) nm))) with (k + Datatypes.S (List.length gm - k + List.length (map (fun n : str => (n, MA)) nm))) by lia.
      rewrite (Run true defaults ns [] _ _ E), loop_end. reflexivity.
    - split; [exact X2|]. split; [|exact (read_keys _ X1)]. intros o u O. destruct (proj1 (known_action o u) O) as (a & A).
      exists (upd u o ws (default_of o)). split; [|exact (upd_option o u ws O)].
      destruct (set_names ns nm a o u Ks P A) as (_ & _ & ->). exact (V a o u _ A (default_values o u a A)). }
  destruct names as [|n names].
  { cbn [app]. destruct (Ends (before ++ after) (ws1 ++ ws2) [] (groups_app _ _ _ _ G1 G2) (Forall_nil _)) as (d & E & W). rewrite app_nil_r in E. eauto. }
  destruct (groups_run after ws2 G2 [] [] eq_refl) as (gm2 & k2 & acts2 & M2 & K2 & Ne & F2 & Run2). rewrite !app_nil_r in M2.
  assert (Ha : after = [] \/ after <> []) by (destruct after; [left; reflexivity|right; discriminate]). destruct Ha as [-> |Ha].
  { rewrite app_nil_r. destruct (Ends before ws1 (n :: names) G1 P) as (d & E & W).
    assert (ws2 = []) as ->; [|rewrite app_nil_r; eauto]. clear - G2. remember [] as l eqn:El. destruct G2 as [|g ws r rs G G2]; [reflexivity|].
    exfalso. destruct G; discriminate El. }
  destruct (Ne Ha) as (s & o & gm' & Eg).
  pose proof (names_marks (n :: names) after gm2 P M2) as M. set (nm := n :: names) in *.
  destruct (groups_run before ws1 G1 (nm ++ after) _ M) as (gm & k & acts & M1 & K & _ & F & Run).
  destruct (doing_all ws1 acts F defaults default_keys) as (ns & E & Ks & _ & V). destruct (set_names ns nm a0 d0 u0 Ks P A0) as (X1 & X2 & _).
  destruct (doing_all ws2 acts2 F2 (set_filename ns nm)) as (ns2 & E2 & Ks2 & Fn & V2); [rewrite X1; exact default_keys|].
  exists ns2. split.
  - unfold parse_args. rewrite M1. cbn [bind]. rewrite !app_length, map_length. change (List.length nm) with (Datatypes.S (List.length names)).
    replace (Datatypes.S (List.length gm + (Datatypes.S (List.length names) + List.length gm2)))
      with (k + Datatypes.S (k2 + Datatypes.S (List.length gm - k + List.length names + (List.length gm2 - k2)))) by lia.
    rewrite (Run true defaults ns [] _ _ E). cbn [loop]. rewrite existsb_app, not_option, Eg. cbn [existsb is_option snd orb].
    change (map (fun n0 : str => (n0, MA)) nm ++ (s, MO o) :: gm') with ((n, MA) :: map (fun n0 : str => (n0, MA)) names ++ (s, MO o) :: gm') at 1. cbv iota.
    rewrite (names_run nm ((s, MO o) :: gm') eq_refl), <- Eg.
    assert (R : forall fuel, loop (k2 + fuel) false gm2 (set_filename ns nm) [] = loop fuel false [] ns2 []).
    { intros fuel. rewrite <- (Run2 false (set_filename ns nm) ns2 [] fuel [] E2), app_nil_r. reflexivity. }
    rewrite R. reflexivity.
  - split; [rewrite Fn; exact X2|]. split; [|apply read_keys; rewrite Ks2; exact X1]. intros x u O. destruct (proj1 (known_action x u) O) as (a & A).
    exists (upd u x (ws1 ++ ws2) (default_of x)). split; [|exact (upd_option x u _ O)]. rewrite upd_app. apply (V2 a x u _ A).
    destruct (set_names ns nm a x u Ks P A) as (_ & _ & ->). exact (V a x u _ A (default_values x u a A)).
Qed.

(** after "--" every word is a name, whatever it begins with *)
Theorem C104_dashes before names rest ws : groups before ws -> Forall plain names ->
  exists d, parse_args (before ++ names ++ lit "--" :: rest) = Ok d /\ well_read (names ++ rest) ws d.
Proof.
  intros G P. destruct some_action as (a0 & d0 & u0 & A0).
  pose proof (names_marks names (lit "--" :: rest) _ P eq_refl) as M.
  destruct (groups_run before ws G _ _ M) as (gm & k & acts & M1 & K & _ & F & Run).
  destruct (doing_all ws acts F defaults default_keys) as (ns & E & Ks & _ & V).
  set (tail := map (fun n : str => (n, MA)) names ++ (lit "--", MDash) :: map (fun x : str => (x, MA)) rest) in *.
  assert (Tn : existsb is_option tail = false) by (unfold tail; rewrite existsb_app, not_option; cbn [existsb is_option snd orb]; apply not_option).
  assert (Tf : map fst tail = names ++ lit "--" :: rest) by (unfold tail; rewrite map_app, names_fst; cbn [map fst]; rewrite names_fst; reflexivity).
  assert (Td : drop_dashes (names ++ lit "--" :: rest) = names ++ rest).
  { clear - P. induction P as [|v names Pv _ IH]; [reflexivity|]. cbn [app drop_dashes]. rewrite (proj1 (plain_parse v Pv)), IH. reflexivity. }
  assert (Ef : set_filename ns (map fst tail) = dset ns k_filename (VList (map VStr (names ++ rest)))) by (unfold set_filename; rewrite Tf, Td; reflexivity).
  exists (set_filename ns (map fst tail)). split.
  - unfold parse_args. rewrite M1. cbn [bind]. rewrite app_length.
    replace (Datatypes.S (List.length gm + List.length tail)) with (k + Datatypes.S (List.length gm - k + List.length tail)) by lia.
    rewrite (Run true defaults ns [] _ _ E). cbn [loop]. rewrite Tn. reflexivity.
  - rewrite Ef. split; [apply dget_dset_eq|]. split.
    + intros o u O. destruct (proj1 (known_action o u) O) as (a & A). exists (upd u o ws (default_of o)). split; [|exact (upd_option o u ws O)].
      rewrite dget_dset_ne; [exact (V a o u _ A (default_values o u a A))|]. pose proof A as (A1 & A2 & _). rewrite <- A2. exact (name_not_option a A1).
    + apply read_keys. rewrite dkeys_dset. unfold dmem. destruct (dget ns k_filename) eqn:Eg; [exact Ks|]. exfalso. apply dget_None in Eg. apply Eg. rewrite Ks. left. reflexivity.
Qed.

(** names on both sides of an option are refused *)
Theorem C104_split before names mid others after ws1 ws2 ws3 : groups before ws1 -> Forall plain names -> names <> [] -> groups mid ws2 -> mid <> [] ->
  Forall plain others -> others <> [] -> groups after ws3 -> parse_args (before ++ names ++ mid ++ others ++ after) = Err SystemExit.
Proof.
  intros G1 P N1 G2 Nm P2 N2 G3. destruct some_action as (a0 & d0 & u0 & A0).
  destruct (groups_run after ws3 G3 [] [] eq_refl) as (gm3 & k3 & acts3 & M3 & K3 & Ne3 & F3 & Run3). rewrite !app_nil_r in M3.
  pose proof (names_marks others after gm3 P2 M3) as Mo. set (om := map (fun n : str => (n, MA)) others) in *.
  destruct (groups_run mid ws2 G2 _ _ Mo) as (gm2 & k2 & acts2 & M2 & K2 & Ne & F2 & Run2). destruct (Ne Nm) as (s & o & gm' & Eg).
  pose proof (names_marks names _ _ P M2) as M. set (nm := map (fun n : str => (n, MA)) names) in *.
  destruct (groups_run before ws1 G1 _ _ M) as (gm & k & acts & M1 & K & _ & F & Run).
  destruct (doing_all ws1 acts F defaults default_keys) as (ns & E & Ks & _ & _). destruct (set_names ns names a0 d0 u0 Ks P A0) as (X1 & _ & _).
  destruct (doing_all ws2 acts2 F2 (set_filename ns names)) as (ns2 & E2 & Ks2 & _ & _); [rewrite X1; exact default_keys|].
  destruct (doing_all ws3 acts3 F3 ns2) as (ns3 & E3 & _ & _ & _); [rewrite Ks2, X1; exact default_keys|].
  assert (Hn : 1 <= List.length nm) by (unfold nm; rewrite map_length; destruct names; [congruence|cbn; lia]).
  assert (Ho : 1 <= List.length om) by (unfold om; rewrite map_length; destruct others; [congruence|cbn; lia]).
  unfold parse_args. rewrite M1. cbn [bind]. rewrite !app_length.
  replace (Datatypes.S (List.length gm + (List.length nm + (List.length gm2 + (List.length om + List.length gm3)))))
    with (k + Datatypes.S (k2 + Datatypes.S (k3 + Datatypes.S (List.length gm - k + (List.length nm - 1) + (List.length gm2 - k2) + (List.length om - 1) + (List.length gm3 - k3))))) by lia.
  set (f3 := k3 + Datatypes.S _). assert (Hf : exists f, f3 = k3 + Datatypes.S f) by (eexists; reflexivity). clearbody f3. destruct Hf as (f & ->).
  rewrite (Run true defaults ns [] _ _ E).
  assert (L1 : forall fuel, loop (Datatypes.S fuel) true (nm ++ gm2 ++ om ++ gm3) ns [] = loop fuel false (gm2 ++ om ++ gm3) (set_filename ns names) []).
  { intros fuel. cbn [loop]. rewrite existsb_app. unfold nm at 1. rewrite not_option, Eg. cbn [app existsb is_option snd orb]. unfold nm.
    destruct names as [|n names]; [congruence|]. cbn [map app]. change ((n, MA) :: map (fun n0 : str => (n0, MA)) names ++ (s, MO o) :: gm' ++ om ++ gm3)
      with (map (fun n0 : str => (n0, MA)) (n :: names) ++ ((s, MO o) :: gm' ++ om ++ gm3)). rewrite (names_run (n :: names) ((s, MO o) :: gm' ++ om ++ gm3) eq_refl). reflexivity. }
  rewrite L1, (Run2 false _ ns2 [] _ _ E2).
  assert (L2 : exists d, loop (Datatypes.S (k3 + Datatypes.S f)) false (om ++ gm3) ns2 [] = Ok (d, others)).
  { destruct after as [|x after].
    - injection M3 as <-. rewrite app_nil_r. exists ns2. exact (loop_end false others ns2 _).
    - destruct (Ne3 ltac:(discriminate)) as (s3 & o3 & g3 & Eg3).
      assert (R : forall ex, loop (k3 + Datatypes.S f) false gm3 ns2 ex = Ok (ns3, ex)).
      { intros ex. rewrite <- (app_nil_r gm3), (Run3 false ns2 ns3 ex (Datatypes.S f) [] E3). cbn [loop existsb map]. rewrite app_nil_r. reflexivity. }
      exists ns3. cbn [loop]. rewrite existsb_app. unfold om at 1. rewrite not_option, Eg3. cbn [existsb is_option snd orb]. unfold om.
      destruct others as [|n others]; [congruence|]. cbn [map app]. change ((n, MA) :: map (fun n0 : str => (n0, MA)) others ++ (s3, MO o3) :: g3)
        with (map (fun n0 : str => (n0, MA)) (n :: others) ++ ((s3, MO o3) :: g3)). rewrite (names_run (n :: others) ((s3, MO o3) :: g3) eq_refl), <- Eg3. apply R. }
  destruct L2 as (d & ->). cbn [bind snd]. destruct others; [congruence|reflexivity].
Qed.

(** a dash with no option's letter, which is neither a negative number nor holds a space; or a long option that no documented option begins with *)
Definition unknown (s : str) : Prop :=
  no_letter s /\ ~ negative s /\ ~ In 32%N s \/
  (exists t, s = lit "--" ++ t /\ t <> []) /\ ~ In 32%N s /\
  forall p rest, (s = p /\ ~ In 61%N s \/ s = p ++ 61%N :: rest /\ ~ In 61%N p) ->
    (forall o d u, long o d u -> forall r, o <> p ++ r) /\ forall r, lit "--help" <> p ++ r.
Lemma partition_spec s : match partition_eq s with (p, None) => s = p /\ ~ In 61%N s | (p, Some r) => s = p ++ 61%N :: r /\ ~ In 61%N p end.
Proof.
  induction s as [|c s IH]; [split; [reflexivity|intros []]|]. cbn [partition_eq]. destruct (c =? 61)%N eqn:E.
  - apply N.eqb_eq in E. subst. split; [reflexivity|intros []].
  - assert (Hc : c <> 61%N) by (intros ->; discriminate). destruct (partition_eq s) as [p [r|]]; destruct IH as [-> H]; (split; [reflexivity|]); intros [K|K]; auto.
Qed.
Lemma lookup_In o l a : lookup o l = Some a -> In (o, a) l.
Proof.
  induction l as [|[x b] l IH]; [discriminate|]. cbn [lookup]. destruct (str_eqb o x) eqn:E; [|intros H; right; exact (IH H)].
  apply str_eqb_eq in E. subst x. intros H. injection H as ->. left. reflexivity.
Qed.
Lemma startswith_ex p s : startswith p s = true -> exists r, s = p ++ r.
Proof.
  revert s. induction p as [|c p IH]; intros s H; [exists s; reflexivity|]. destruct s as [|x s]; [discriminate|]. cbn [startswith] in H.
  apply andb_true_iff in H. destruct H as [H1 H2]. apply N.eqb_eq in H1. subst x. destruct (IH s H2) as (r & ->). exists r. reflexivity.
Qed.
Lemma double_dash s a : In (s, a) option_strings -> (exists t, s = 45%N :: 45%N :: t) -> (exists d u, long s d u) \/ s = lit "--help".
Proof.
  intros H (t & E). unfold option_strings in H. apply in_flat_map in H. destruct H as (b & Hb & H). destruct Hb as [<- |Hb].
  - right. apply in_map_iff in H. destruct H as (o & X & H). injection X as -> _. destruct H as [<- |[<- |[]]]; [discriminate E|reflexivity].
  - left. rewrite actions_documented in Hb. apply in_map_iff in Hb. destruct Hb as ((((n & x) & y) & u) & <- & Hb).
    apply in_map_iff in H. destruct H as (o & X & H). injection X as -> _. exists (lit n), u, n, x, y. split; [exact Hb|]. split; [reflexivity|].
    cbn [action_of a_strings] in H. apply in_app_or in H. destruct H as [H|[<- |[]]]; [|reflexivity]. exfalso.
    each Hb; cbn in H; try contradiction; destruct H as [<- |[]]; discriminate E.
Qed.
Lemma unknown_option s : unknown s -> parse_optional s = Ok (Some (mk_o None s None None)).
Proof.
  intros [((c & r & -> & N1 & NL & Nh) & Nn & Ns)|((t & Es & Ht) & Hsp & Hk)].
  { rewrite (no_letter_option c r N1 NL Nh). destruct (negative_number (45%N :: c :: r)) eqn:E; [apply negative_spec in E; contradiction|].
    destruct (cmem 32%N (45%N :: c :: r)) eqn:E2; [apply cmem_In in E2; contradiction|]. reflexivity. }
  pose proof (partition_spec s) as Sp. destruct (partition_eq s) as [p after] eqn:Ep.
  assert (Hp : (forall o d u, long o d u -> forall r, o <> p ++ r) /\ forall r, lit "--help" <> p ++ r).
  { destruct after as [r|]; [apply (Hk p r); right; exact Sp|apply (Hk p []); left; exact Sp]. }
  assert (Np : forall x a, In (x, a) option_strings -> forall r, x <> p ++ r).
  { assert (Dp : exists t', p = 45%N :: 45%N :: t').
    { destruct after as [r|]; destruct Sp as [Sp Sn]; rewrite Es in Sp; cbn [lit app] in Sp.
      - destruct p as [|c1 [|c2 p]]; [discriminate Sp|discriminate Sp|]. change (lit "--" ++ t) with (45%N :: 45%N :: t) in Sp. injection Sp as <- <- _. eauto.
      - change (lit "--" ++ t) with (45%N :: 45%N :: t) in Sp. rewrite <- Sp. eauto. }
    destruct Dp as (t' & Dp). intros x a I r E. destruct (double_dash x a I) as [(d & u & L)| ->]; [rewrite Dp in E; rewrite E; eexists; reflexivity| |].
    - exact (proj1 Hp x d u L r E).
    - exact (proj2 Hp r E). }
  assert (L1 : lookup s option_strings = None).
  { destruct (lookup s option_strings) as [a|] eqn:E; [|reflexivity]. exfalso. apply lookup_In in E.
    destruct after as [r|]; destruct Sp as [Sp Sn]; [exact (Np s a E _ Sp)|]. apply (Np s a E []). rewrite app_nil_r. exact Sp. }
  assert (L2 : lookup p option_strings = None).
  { destruct (lookup p option_strings) as [a|] eqn:E; [|reflexivity]. exfalso. apply lookup_In in E. apply (Np p a E []). rewrite app_nil_r. reflexivity. }
  assert (L3 : get_option_tuples s = []).
  { rewrite Es. change (lit "--" ++ t) with (45%N :: 45%N :: t). unfold get_option_tuples. change (45 =? 45)%N with true. cbv iota.
    change (45%N :: 45%N :: t) with (lit "--" ++ t). rewrite <- Es, Ep. revert Np. generalize option_strings. intros l Np. induction l as [|[x a] l IH]; [reflexivity|].
    cbn [flat_map fst snd]. destruct (startswith p x) eqn:E; [|cbn [app]; apply IH; intros y b I; apply (Np y b); right; exact I].
    exfalso. destruct (startswith_ex p x E) as (r & X). exact (Np x a (or_introl eq_refl) r X). }
  assert (L4 : negative_number s = false) by (rewrite Es; reflexivity).
  assert (L5 : cmem 32%N s = false). { destruct (cmem 32%N s) eqn:E; [|reflexivity]. apply cmem_In in E. contradiction. }
  unfold parse_optional. rewrite L1, Ep, L2, L3, L4, L5, Es. change (lit "--" ++ t) with (45%N :: 45%N :: t). change (negb (45 =? 45)%N) with false. cbv iota.
  destruct after; reflexivity.
Qed.
Lemma loop_refuses fuel : forall free l ns extras d ex, loop fuel free l ns extras = Ok (d, ex) ->
  (exists s o, In (s, MO o) l /\ o_action o = None) \/ extras <> [] -> ex <> [].
Proof.
  induction fuel as [|fuel IH]; intros free l ns extras d ex H U; [discriminate|]. cbn [loop] in H. destruct (existsb is_option l) eqn:X.
  - destruct l as [|[s m] rest]; [discriminate|].
    assert (Names : forall l names rest', names_before l = (names, rest') -> forall s o, In (s, MO o) l -> In (s, MO o) rest').
    { clear. induction l as [|x l IH]; intros names rest' E s o I; [destruct I|]. cbn [names_before] in E. destruct (is_option x) eqn:K; [injection E as <- <-; exact I|].
      destruct (names_before l) as [a b] eqn:En. injection E as <- <-. destruct I as [-> |I]; [discriminate K|]. exact (IH a b eq_refl s o I). }
    assert (Go : forall names rest', names_before ((s, m) :: rest) = (names, rest') ->
      (if free then loop fuel false rest' (set_filename ns names) extras else loop fuel false rest' ns (extras ++ names)) = Ok (d, ex) -> ex <> []).
    { intros names rest' En G.
      assert (U' : (exists s o, In (s, MO o) rest' /\ o_action o = None) \/ extras <> []).
      { destruct U as [(s1 & o1 & I & A)|U]; [left|right; exact U]. exists s1, o1. split; [exact (Names _ _ _ En s1 o1 I)|exact A]. }
      destruct free; [exact (IH _ _ _ _ _ _ G U')|]. apply (IH _ _ _ _ _ _ G). destruct U' as [U'|U']; [left; exact U'|right; destruct extras; [congruence|discriminate]]. }
    destruct m as [|o|].
    + destruct (names_before ((s, MA) :: rest)) as [names rest'] eqn:En. exact (Go names rest' eq_refl H).
    + destruct (consume_optional o s rest) as [[[acts more] rest']|] eqn:C; [|discriminate H]. cbn [bind] in H. destruct (foldM take_action acts ns) as [ns'|]; [|discriminate H].
      cbn [bind] in H. apply (IH _ _ _ _ _ _ H). destruct U as [(s1 & o1 & [I|I] & A)|U].
      * injection I as -> ->. right. unfold consume_optional in C. rewrite A in C. injection C as _ <- _. destruct extras; discriminate.
      * left. exists s1, o1. split; [|exact A]. unfold consume_optional in C. destruct (o_action o) as [a|]; [|injection C as _ _ <-; exact I].
        destruct (match o_arg o with Some arg => explicit a (o_string o) match o_sep o with Some x => x | None => [] end arg [] | None => Ok (Pending [] a) end) as [[acts1 ex1|acts1 b]|]; cbn [bind] in C; [injection C as _ _ <-; exact I| |discriminate].
        destruct (arity b =? 0); [injection C as _ _ <-; exact I|]. destruct rest as [|[v [|o2|]] rest]; try discriminate. injection C as _ _ <-.
        destruct I as [I|I]; [discriminate I|exact I].
      * right. destruct extras; [congruence|discriminate].
    + destruct (names_before ((s, MDash) :: rest)) as [names rest'] eqn:En. exact (Go names rest' eq_refl H).
  - assert (U' : extras <> []).
    { destruct U as [(s & o & I & _)|U]; [exfalso|exact U]. assert (Y : existsb is_option l = true) by (apply existsb_exists; exists (s, MO o); split; [exact I|reflexivity]). congruence. }
    destruct free; injection H as _ <-; [exact U'|]. destruct extras; [congruence|discriminate].
Qed.
Lemma marks_In args l s o : marks args = Ok l -> ~ In (lit "--") args -> In s args -> parse_optional s = Ok (Some o) -> In (s, MO o) l.
Proof.
  revert l. induction args as [|a args IH]; intros l M N I P; [destruct I|]. cbn [marks] in M. destruct (str_eqb a (lit "--")) eqn:E.
  - exfalso. apply N. left. apply str_eqb_eq in E. exact E.
  - destruct (parse_optional a) as [oa|] eqn:Ea; [|discriminate M]. cbn [bind] in M. destruct (marks args) as [l'|]; [|discriminate M]. cbn [bind] in M. injection M as <-.
    destruct I as [-> |I].
    + rewrite P in Ea. injection Ea as <-. left. reflexivity.
    + right. apply IH; auto. intros K. apply N. right. exact K.
Qed.
(** an unknown option is refused, wherever it is *)
Theorem C104_unknown args s : In s args -> unknown s -> ~ In (lit "--") args -> forall d, parse_args args <> Ok d.
Proof.
  intros I U N d E. unfold parse_args in E. destruct (marks args) as [l|] eqn:M; [|discriminate E]. cbn [bind] in E.
  destruct (loop (Datatypes.S (List.length l)) true l defaults []) as [[ns ex]|] eqn:L; [|discriminate E]. cbn [bind snd] in E.
  assert (X : ex <> []).
  { apply (loop_refuses _ _ _ _ _ _ _ L). left. exists s, (mk_o None s None None). split; [|reflexivity]. exact (marks_In args l s _ M N I (unknown_option s U)). }
  destruct ex; [congruence|discriminate E].
Qed.
(** -jtmovie -L fr --excludes=x a.avi - --enforce-list *)
Example C104_nonvacuous : groups [lit "-jtmovie"; lit "-L"; lit "fr"; lit "--excludes=x"] [Said (lit "json"); Gave (lit "type") (lit "movie"); Gave (lit "allowed_languages") (lit "fr"); Gave (lit "excludes") (lit "x")] /\
  groups [lit "--enforce-list"] [Said (lit "enforce_list")] /\ Forall plain [lit "a.avi"; lit "-"].
Proof.
  split; [|split].
  - apply (gs_cons [lit "-jtmovie"] [Said (lit "json"); Gave (lit "type") (lit "movie")]).
    { apply (g_letter_joined [106%N] [Said (lit "json")] 116%N (lit "type") Setting (lit "movie") (lit "movie")); [|exists "type"%string, "t"%string, "type"%string; split; [vm_compute; tauto|split; reflexivity]|discriminate|].
      - constructor; [exists "json"%string, "j"%string, "json"%string; split; [vm_compute; tauto|split; reflexivity]|constructor].
      - right. split; [reflexivity|]. split; [discriminate|]. intros r E. discriminate E. }
    apply (gs_cons [lit "-L"; lit "fr"] [Gave (lit "allowed_languages") (lit "fr")]).
    { apply (g_letter_next [] [] 76%N (lit "allowed_languages") Collected (lit "fr")); [constructor|exists "allowed_languages"%string, "L"%string, "allowed-languages"%string; split; [vm_compute; tauto|split; reflexivity]|discriminate|].
      right; left. intros r E. discriminate E. }
    apply (gs_cons [lit "--excludes=x"] [Gave (lit "excludes") (lit "x")]); [|constructor].
    apply (g_long_equal (lit "--excludes") (lit "excludes") Collected (lit "x")); [exists "excludes"%string, ""%string, "excludes"%string; split; [vm_compute; tauto|split; reflexivity]|discriminate].
  - apply (gs_cons [lit "--enforce-list"] [Said (lit "enforce_list")]); [|constructor]. apply g_long. exists "enforce_list"%string, "l"%string, "enforce-list"%string; split; [vm_compute; tauto|split; reflexivity].
  - constructor; [right; left; intros r E; discriminate E|]. constructor; [left; reflexivity|constructor].
Qed.
Example C104_nonvacuous_unknown : unknown (lit "--jason") /\ parse_args [lit "--jason"; lit "a"] = Err SystemExit.
Proof.
  split; [|vm_compute; reflexivity]. right. split; [exists (lit "jason"); split; [reflexivity|discriminate]|]. split; [intros H; cbn in H; lia|].
  intros p rest [[<- _]|[E _]].
  - split; [|intros r E; discriminate E]. intros o d u (n & x & y & H & -> & ->) r E. each H; discriminate E.
  - exfalso. change (lit "--jason") with [45;45;106;97;115;111;110]%N in E. do 7 (destruct p as [|? p]; [discriminate E|]; cbn [app] in E; injection E as _ E). destruct p; discriminate E.
Qed.
Lemma no_letter_1 r : no_letter (lit "-1" ++ r).
Proof. assert (D : (48 <= 49 <= 57)%N \/ 49%N = 46%N) by lia. destruct (digit_no_letter 49%N D) as (N1 & NL & Nh). exists 49%N, r. auto. Qed.
(** -j -2.5 "-1 a" -- -j --: the last two are names; "-1." is refused *)
Example C104_nonvacuous_dashes : Forall plain [lit "-2.5"; lit "-1 a"] /\ unknown (lit "-1.") /\ parse_args [lit "-1."] = Err SystemExit /\
  match parse_args [lit "-j"; lit "-2.5"; lit "-1 a"; lit "--"; lit "-j"; lit "--"] with
  | Ok d => dget d k_filename = Some (VList [VStr (lit "-2.5"); VStr (lit "-1 a"); VStr (lit "-j"); VStr (lit "--")])
  | Err _ => False end.
Proof.
  split; [|split; [|split; vm_compute; reflexivity]].
  - constructor; [|constructor; [|constructor]]; right; right.
    + left. apply negative_spec. reflexivity.
    + right. split; [exact (no_letter_1 (lit " a"))|]. apply cmem_In. reflexivity.
  - left. split; [exact (no_letter_1 (lit "."))|]. split.
    + intros H. apply negative_spec in H. discriminate H.
    + intros H. apply cmem_In in H. discriminate H.
Qed.
Print Assumptions C104_dashes. Print Assumptions C104_options. Print Assumptions C104_split. Print Assumptions C104_unknown.
