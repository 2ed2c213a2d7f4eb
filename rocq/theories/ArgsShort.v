(** C104: the long options may be shortened *)
From Verif Require Import Py PyFacts Args ArgsProps.
From Coq Require Import Arith ZifyBool.

(** the long options, --help included *)
Definition long_option (o : str) : Prop := (exists d u, long o d u) \/ o = lit "--help".
(** [t] is two dashes and the beginning of [o] *)
Definition begins (t o : str) : Prop := (exists p, p <> [] /\ t = lit "--" ++ p) /\ exists q, o = t ++ q.
(** [t] is short for [o]: no other long option begins so *)
Definition short_for (t o : str) : Prop := long_option o /\ begins t o /\ forall o', long_option o' -> begins t o' -> o' = o.
(** the same argument, with the name of the option in full in the second *)
Inductive in_full : str -> str -> Prop :=
| as_is x : in_full x x
| name_only t o : short_for t o -> in_full t o
| with_value t o v : short_for t o -> in_full (t ++ lit "=" ++ v) (o ++ lit "=" ++ v).
(** two long options begin with [t], which is neither *)
Definition ambiguous (t : str) : Prop := ~ long_option t /\ exists o o', long_option o /\ long_option o' /\ o <> o' /\ begins t o /\ begins t o'.

(** * the table *)
Lemma long_In o : long_option o <-> exists a, In (o, a) option_strings /\ exists p, o = lit "--" ++ p.
Proof.
  split.
  - intros [(d & u & n & x & y & H & -> & ->)| ->].
    + exists (action_of (n, x, y, u)). split; [|eexists; reflexivity]. unfold option_strings. apply in_flat_map. exists (action_of (n, x, y, u)). split.
      * right. rewrite actions_documented. apply in_map. exact H.
      * apply in_map_iff. exists (lit "--" ++ lit y). split; [reflexivity|]. cbn [action_of a_strings]. apply in_or_app. right. left. reflexivity.
    + exists help_action. split; [|exists (lit "help"); reflexivity]. unfold option_strings. apply in_flat_map. exists help_action. split; [left; reflexivity|]. right. left. reflexivity.
  - intros (a & H & p & ->). exact (double_dash _ a H (ex_intro _ p eq_refl)).
Qed.
Lemma options_NoDup : NoDup (map fst option_strings).
Proof.
  assert (H : forall l : list str, (fix nd (l : list str) : bool := match l with [] => true | x :: r => negb (smem x r) && nd r end) l = true -> NoDup l).
  { induction l as [|x l IH]; intros H; [constructor|]. apply andb_true_iff in H as [H1 H2]. constructor; [|exact (IH H2)]. intros I. apply smem_In in I. rewrite I in H1. discriminate. }
  apply H. vm_compute. reflexivity.
Qed.
Lemma no_equal o : long_option o -> ~ In 61%N o.
Proof.
  intros [(d & u & n & x & y & H & -> & ->)| ->] I.
  - each H; vm_compute in I; repeat (destruct I as [I|I]; [discriminate I|]); destruct I.
  - vm_compute in I; repeat (destruct I as [I|I]; [discriminate I|]); destruct I.
Qed.
Lemma partition_plain s : ~ In 61%N s -> partition_eq s = (s, None).
Proof.
  induction s as [|c s IH]; intros N; [reflexivity|]. cbn [partition_eq]. destruct (N.eqb_spec c 61) as [-> |_]; [destruct N; left; reflexivity|]. rewrite IH by (intros I; apply N; right; exact I). reflexivity.
Qed.
Lemma partition_at s v : ~ In 61%N s -> partition_eq (s ++ 61%N :: v) = (s, Some v).
Proof.
  induction s as [|c s IH]; intros N; [reflexivity|]. cbn [partition_eq app]. destruct (N.eqb_spec c 61) as [-> |_]; [destruct N; left; reflexivity|]. rewrite IH by (intros I; apply N; right; exact I). reflexivity.
Qed.
Lemma begins_iff p o : p <> [] -> begins (lit "--" ++ p) o <-> startswith (lit "--" ++ p) o = true.
Proof.
  intros N. split.
  - intros [_ (q & ->)]. generalize (lit "--" ++ p). intros t. induction t as [|c t IH]; [reflexivity|]. cbn [startswith app]. rewrite N.eqb_refl. exact IH.
  - intros H. split; [exists p; auto|]. apply startswith_ex in H. exact H.
Qed.
Lemma lookup_iff o a l : NoDup (map fst l) -> lookup o l = Some a <-> In (o, a) l.
Proof.
  intros N. split; [apply lookup_In|]. induction l as [|[x b] l IH]; intros H; [destruct H|]. cbn [map fst] in N. inversion N as [|? ? N1 N2]. subst. cbn [lookup].
  destruct (str_eqb o x) eqn:E.
  - apply str_eqb_eq in E. subst x. destruct H as [H|H]; [injection H as ->; reflexivity|]. destruct N1. apply (in_map fst) in H. exact H.
  - destruct H as [H|H]; [injection H as -> ->; rewrite str_eqb_refl in E; discriminate|]. exact (IH N2 H).
Qed.
Lemma one_found {A B} (f : A -> bool) (g : A -> B) (l : list A) x : NoDup l -> In x l -> f x = true -> (forall y, In y l -> f y = true -> y = x) -> flat_map (fun a => if f a then [g a] else []) l = [g x].
Proof.
  intros N. revert N. induction l as [|z l IH]; intros N I F U; [destruct I|]. inversion N as [|? ? N1 N2]. subst. cbn [flat_map]. destruct (f z) eqn:E.
  - assert (z = x) by (apply U; [left; reflexivity|exact E]). subst z.
    assert (K : forall l' : list A, (forall y, In y l' -> f y = false) -> flat_map (fun a => if f a then [g a] else []) l' = []).
    { clear. induction l' as [|y l' IH]; intros H; [reflexivity|]. cbn [flat_map]. rewrite (H y (or_introl eq_refl)). apply IH. intros w Hw. apply H. right. exact Hw. }
    rewrite K; [reflexivity|]. intros y Hy. destruct (f y) eqn:Ey; [|reflexivity]. exfalso. apply N1. rewrite <- (U y (or_intror Hy) Ey). exact Hy.
  - cbn [app]. destruct I as [-> |I]; [congruence|]. apply (IH N2 I F). intros y Hy. apply U. right. exact Hy.
Qed.
Lemma two_found {A B} (f : A -> bool) (g : A -> B) (l : list A) x y : In x l -> In y l -> x <> y -> f x = true -> f y = true -> exists u v w, flat_map (fun a => if f a then [g a] else []) l = u :: v :: w.
Proof.
  intros Ix Iy N Fx Fy. induction l as [|z l IH]; [destruct Ix|]. cbn [flat_map].
  assert (K : forall w, In w l -> f w = true -> exists u v, flat_map (fun a => if f a then [g a] else []) l = u :: v).
  { clear. intros w Hw Fw. destruct (flat_map _ l) as [|u v] eqn:E; [|eauto]. exfalso. assert (I : In (g w) (flat_map (fun a => if f a then [g a] else []) l)) by (apply in_flat_map; exists w; rewrite Fw; split; [exact Hw|left; reflexivity]). rewrite E in I. destruct I. }
  destruct Ix as [-> |Ix], Iy as [Iy|Iy]; [congruence| | |].
  - rewrite Fx. destruct (K y Iy Fy) as (u & v & ->). cbn [app]. eauto.
  - subst z. rewrite Fy. destruct (K x Ix Fx) as (u & v & ->). cbn [app]. eauto.
  - destruct (IH Ix Iy) as (u & v & w & ->). destruct (f z); cbn [app]; eauto.
Qed.

(** * one argument *)
Lemma NoDup_pairs : NoDup option_strings.
Proof. apply (NoDup_map_inv fst). exact options_NoDup. Qed.
(** what an option is read as *)
Definition read_as (x x' : str) : Prop := exists o, o_action o <> None /\ parse_optional x = Ok (Some o) /\ parse_optional x' = Ok (Some o).
Definition tuple (arg : option str) (oa : str * action) : optional := mk_o (Some (snd oa)) (fst oa) (match arg with Some _ => Some (lit "=") | None => None end) arg.
Lemma tuples_is p s arg : partition_eq s = (lit "--" ++ p, arg) -> (exists r, s = lit "--" ++ r) ->
  get_option_tuples s = flat_map (fun oa => if startswith (lit "--" ++ p) (fst oa) then [tuple arg oa] else []) option_strings.
Proof.
  intros E (r & Es). rewrite Es. change (lit "--" ++ r) with (45%N :: 45%N :: r). unfold get_option_tuples. change (45 =? 45)%N with true. cbv iota.
  change (45%N :: 45%N :: r) with (lit "--" ++ r). rewrite <- Es, E. reflexivity.
Qed.
Lemma short_reads t o arg : short_for t o ->
  let w := match arg with Some v => lit "=" ++ v | None => [] end in
  exists a, In (o, a) option_strings /\ parse_optional (t ++ w) = Ok (Some (tuple arg (o, a))) /\ parse_optional (o ++ w) = Ok (Some (tuple arg (o, a))).
Proof.
  intros (Lo & Bo & U) w. destruct (proj1 (long_In o) Lo) as (a & Io & po & Eo). exists a. split; [exact Io|].
  destruct Bo as [(p & Np & Et) (q & Eq)].
  pose proof (no_equal o Lo) as No. assert (Nt : ~ In 61%N t) by (intros I; apply No; rewrite Eq; apply in_or_app; left; exact I).
  pose proof (proj2 (lookup_iff o a _ options_NoDup) Io) as Lk.
  assert (Part : forall z, ~ In 61%N z -> partition_eq (z ++ w) = (z, arg)).
  { intros z Nz. subst w. destruct arg as [v|]; [apply partition_at, Nz|rewrite app_nil_r; apply partition_plain, Nz]. }
  assert (Lw : forall z, arg <> None -> lookup (z ++ w) option_strings = None \/ True) by auto.
  assert (Full : parse_optional (o ++ w) = Ok (Some (tuple arg (o, a)))).
  { pose proof (Part o No) as Po. subst w. destruct arg as [v|].
    - assert (L0 : lookup (o ++ lit "=" ++ v) option_strings = None).
      { destruct (lookup (o ++ lit "=" ++ v) option_strings) as [b|] eqn:E; [|reflexivity]. exfalso. apply lookup_In in E.
        assert (Lg : long_option (o ++ lit "=" ++ v)) by (apply long_In; exists b; split; [exact E|]; exists (po ++ lit "=" ++ v); rewrite Eo; reflexivity).
        apply (no_equal _ Lg). apply in_or_app. right. left. reflexivity. }
      unfold parse_optional. rewrite L0, Po, Lk. rewrite Eo. reflexivity.
    - rewrite app_nil_r. unfold parse_optional. rewrite Lk, Eo. reflexivity. }
  split; [|exact Full].
  destruct (str_eqb t o) eqn:Eto; [apply str_eqb_eq in Eto; rewrite Eto; exact Full|].
  assert (Nto : t <> o) by (intros ->; rewrite str_eqb_refl in Eto; discriminate).
  assert (Uniq : forall x b, In (x, b) option_strings -> startswith t x = true -> (x, b) = (o, a)).
  { intros x b I St. rewrite Et in St. apply (begins_iff p x Np) in St. rewrite <- Et in St.
    assert (Lx : long_option x) by (apply long_In; exists b; split; [exact I|]; destruct St as [_ (r & ->)]; exists (p ++ r); rewrite Et, <- app_assoc; reflexivity).
    rewrite (U x Lx St) in *. f_equal. apply (lookup_iff o b _ options_NoDup) in I. congruence. }
  assert (So : startswith t o = true) by (rewrite Et; apply (begins_iff p o Np); rewrite <- Et; split; [exists p; auto|exists q; exact Eq]).
  assert (L1 : forall z, lookup (t ++ z) option_strings = None \/ t ++ z = o).
  { intros z. destruct (lookup (t ++ z) option_strings) as [b|] eqn:E; [right|left; reflexivity]. apply lookup_In in E.
    assert (St : startswith t (t ++ z) = true). { rewrite Et. apply (begins_iff p _ Np). split; [exists p; auto|exists z; reflexivity]. }
    pose proof (Uniq _ _ E St) as X. injection X as X _. exact X. }
  assert (Lt : lookup t option_strings = None) by (destruct (L1 []) as [X|X]; rewrite app_nil_r in X; [exact X|contradiction]).
  assert (Lw' : lookup (t ++ w) option_strings = None).
  { destruct (L1 w) as [X|X]; [exact X|]. exfalso. subst w. destruct arg as [v|]; [apply No; rewrite <- X; apply in_or_app; right; left; reflexivity|rewrite app_nil_r in X; contradiction]. }
  assert (T1 : get_option_tuples (t ++ w) = [tuple arg (o, a)]).
  { rewrite (tuples_is p (t ++ w) arg); [|rewrite <- Et; apply Part, Nt|exists (p ++ w); rewrite Et, <- app_assoc; reflexivity].
    rewrite <- Et. apply (one_found (fun oa => startswith t (fst oa)) (tuple arg) option_strings (o, a) NoDup_pairs Io So). intros [x b] I St. exact (Uniq x b I St). }
  unfold parse_optional. rewrite Lw', (Part t Nt), Lt, T1. rewrite Et. change ((lit "--" ++ p) ++ w) with (45%N :: 45%N :: p ++ w). change (negb (45 =? 45)%N) with false. cbv iota.
  destruct arg; reflexivity.
Qed.
Lemma in_full_reads x x' : in_full x x' -> x = x' \/ read_as x x'.
Proof.
  intros [y|t o S|t o v S]; [auto| |]; right.
  - destruct (short_reads t o None S) as (a & _ & E1 & E2). cbv zeta in E1, E2. rewrite app_nil_r in E1, E2. exists (tuple None (o, a)). split; [discriminate|auto].
  - destruct (short_reads t o (Some v) S) as (a & _ & E1 & E2). exists (tuple (Some v) (o, a)). split; [discriminate|]. auto.
Qed.

(** * all of them *)
Definition twin (x y : str * mark) : Prop := x = y \/ exists o, snd x = MO o /\ snd y = MO o /\ o_action o <> None.
Lemma twins_options l l' : Forall2 twin l l' -> existsb is_option l = existsb is_option l'.
Proof.
  induction 1 as [|x y l l' T _ IH]; [reflexivity|]. cbn [existsb]. rewrite IH. f_equal. destruct T as [-> |(o & E1 & E2 & _)]; [reflexivity|]. unfold is_option. rewrite E1, E2. reflexivity.
Qed.
Lemma twins_names l l' : Forall2 twin l l' -> fst (names_before l) = fst (names_before l') /\ Forall2 twin (snd (names_before l)) (snd (names_before l')).
Proof.
  induction 1 as [|x y l l' T F IH]; [split; [reflexivity|constructor]|]. cbn [names_before].
  assert (E : is_option x = is_option y) by (destruct T as [-> |(o & E1 & E2 & _)]; [reflexivity|unfold is_option; rewrite E1, E2; reflexivity]).
  rewrite E. destruct (is_option y) eqn:Ey; [split; [reflexivity|constructor; assumption]|].
  assert (x = y) as -> by (destruct T as [->|(o & _ & E2 & _)]; [reflexivity|unfold is_option in Ey; rewrite E2 in Ey; discriminate]).
  destruct (names_before l) as [a b], (names_before l') as [a' b']. cbn [fst snd] in *. destruct IH as [-> IH]. auto.
Qed.
Lemma twins_args l l' : Forall2 twin l l' -> existsb is_option l = false -> map fst l = map fst l'.
Proof.
  induction 1 as [|x y l l' T F IH]; [reflexivity|]. cbn [existsb map]. intros H. apply orb_false_iff in H as [H1 H2]. rewrite (IH H2). f_equal.
  destruct T as [-> |(o & E & _)]; [reflexivity|]. unfold is_option in H1. rewrite E in H1. discriminate.
Qed.
Definition alike (r r' : res (list (action * list str) * list str * list (str * mark))) : Prop :=
  match r, r' with
  | Ok (acts, ex, l), Ok (acts', ex', l') => acts = acts' /\ ex = ex' /\ Forall2 twin l l'
  | Err e, Err e' => e = e'
  | _, _ => False
  end.
Lemma twins_consume o s s' l l' : (o_action o <> None \/ s = s') -> Forall2 twin l l' -> alike (consume_optional o s l) (consume_optional o s' l').
Proof.
  intros Q F. unfold consume_optional. destruct (o_action o) as [a|]; [|destruct Q as [Q| ->]; [congruence|cbn [alike]; auto]].
  destruct (match o_arg o with Some arg => explicit a (o_string o) match o_sep o with Some x => x | None => [] end arg [] | None => Ok (Pending [] a) end) as [[acts ex|acts b]|e]; cbn [bind alike]; auto.
  destruct (arity b =? 0); [cbn [alike]; auto|]. destruct F as [|x y l l' T F]; [reflexivity|].
  destruct T as [-> |(q & E1 & E2 & _)].
  - destruct y as [v [|o2|]]; cbn [alike]; auto.
  - destruct x as [v m], y as [v' m']. cbn [snd] in E1, E2. subst m m'. reflexivity.
Qed.
Lemma twins_loop fuel : forall free l l' ns extras, Forall2 twin l l' -> loop fuel free l ns extras = loop fuel free l' ns extras.
Proof.
  induction fuel as [|fuel IH]; intros free l l' ns extras F; [reflexivity|]. cbn [loop]. rewrite <- (twins_options l l' F). destruct (existsb is_option l) eqn:X.
  - assert (Go : (let '(names, rest) := names_before l in if free then loop fuel false rest (set_filename ns names) extras else loop fuel false rest ns (extras ++ names)) =
                 (let '(names, rest) := names_before l' in if free then loop fuel false rest (set_filename ns names) extras else loop fuel false rest ns (extras ++ names))).
    { destruct (twins_names l l' F) as [E G]. destruct (names_before l) as [n r], (names_before l') as [n' r']. cbn [fst snd] in *. subst n'. destruct free; apply IH; exact G. }
    destruct F as [|x y l l' T F]; [exact Go|].
    assert (Opt : forall o s s', (o_action o <> None \/ s = s') ->
      (t <- consume_optional o s l; let '(acts, more, rest') := t in ns' <- foldM take_action acts ns; loop fuel free rest' ns' (extras ++ more)) =
      (t <- consume_optional o s' l'; let '(acts, more, rest') := t in ns' <- foldM take_action acts ns; loop fuel free rest' ns' (extras ++ more))).
    { intros o s s' Q. pose proof (twins_consume o s s' l l' Q F) as A. unfold alike in A.
      destruct (consume_optional o s l) as [[[acts ex] r]|e], (consume_optional o s' l') as [[[acts' ex'] r']|e']; try contradiction; cbn [bind].
      - destruct A as (-> & -> & G). destruct (foldM take_action acts' ns) as [ns'|]; [|reflexivity]. cbn [bind]. apply IH. exact G.
      - rewrite A. reflexivity. }
    destruct T as [-> |(o & E1 & E2 & Na)].
    + destruct y as [s [|o|]]; [exact Go|apply Opt; auto|exact Go].
    + destruct x as [s m], y as [s' m']. cbn [snd] in E1, E2. subst m m'. apply Opt. auto.
  - rewrite (twins_args l l' F X). reflexivity.
Qed.
Lemma dashes_in_full x x' : in_full x x' -> x <> lit "--" -> x' <> lit "--".
Proof.
  intros [y|t o S|t o v S] N E; [contradiction| |].
  - destruct S as (_ & [(p & Np & ->) (q & ->)] & _). destruct p; [congruence|]. discriminate E.
  - destruct S as (_ & [(p & Np & ->) (q & ->)] & _). destruct p; [congruence|]. discriminate E.
Qed.
Lemma twins_marks args args' rest : Forall2 in_full args args' -> ~ In (lit "--") args ->
  match marks (args ++ rest), marks (args' ++ rest) with
  | Ok l, Ok l' => Forall2 twin l l'
  | Err e, Err e' => e = e'
  | _, _ => False
  end.
Proof.
  intros F N. induction F as [|x y args args' T F IH].
  - cbn [app]. destruct (marks rest) as [l|]; [|reflexivity]. induction l; constructor; [left; reflexivity|assumption].
  - assert (N1 : x <> lit "--") by (intros E; apply N; left; exact E). pose proof (dashes_in_full x y T N1) as N2. specialize (IH (fun I => N (or_intror I))).
    assert (D : forall z, z <> lit "--" -> str_eqb z (lit "--") = false) by (intros z Nz; destruct (str_eqb z (lit "--")) eqn:E; [apply str_eqb_eq in E; contradiction|reflexivity]).
    cbn [marks app]. rewrite (D x N1), (D y N2). clear D N1 N2 N.
    destruct (in_full_reads x y T) as [-> |(o & Na & E1 & E2)].
    + destruct (parse_optional y) as [oy|]; [|reflexivity]. cbn [bind]. destruct (marks (args ++ rest)), (marks (args' ++ rest)); cbn [bind]; try exact IH. constructor; [left; reflexivity|exact IH].
    + rewrite E1, E2. cbn [bind]. destruct (marks (args ++ rest)), (marks (args' ++ rest)); cbn [bind]; try exact IH. constructor; [right; exists o; auto|exact IH].
Qed.
(** C104: an option whose name is shortened, with no other name that begins so, is the same option. *)
Theorem C104_short args args' rest : Forall2 in_full args args' -> ~ In (lit "--") args -> parse_args (args ++ rest) = parse_args (args' ++ rest).
Proof.
  intros F N. unfold parse_args. pose proof (twins_marks args args' rest F N) as T.
  destruct (marks (args ++ rest)) as [l|e], (marks (args' ++ rest)) as [l'|e']; try contradiction; cbn [bind]; [|rewrite T; reflexivity].
  assert (L : List.length l = List.length l') by (clear - T; induction T; cbn; congruence). rewrite <- L, (twins_loop _ true l l' _ _ T). reflexivity.
Qed.
Print Assumptions C104_short.
(** C104: a beginning of two long options that is neither is refused. *)
Theorem C104_ambiguous args t w rest : ~ In (lit "--") args -> ambiguous t -> (w = [] \/ exists v, w = lit "=" ++ v) -> parse_args (args ++ (t ++ w) :: rest) = Err SystemExit.
Proof.
  intros N (Nl & o & o' & Lo & Lo' & Ne & Bo & Bo') W.
  destruct (proj1 (long_In o) Lo) as (a & Io & _). destruct (proj1 (long_In o') Lo') as (a' & Io' & _).
  pose proof (no_equal o Lo) as No. destruct Bo as [(p & Np & Et) (q & Eq)].
  assert (Nt : ~ In 61%N t) by (intros I; apply No; rewrite Eq; apply in_or_app; left; exact I).
  assert (Exa : exists arg, partition_eq (t ++ w) = (t, arg)).
  { destruct W as [-> |(v & ->)]; [exists None; rewrite app_nil_r; apply partition_plain, Nt|exists (Some v); apply partition_at, Nt]. }
  destruct Exa as (arg & Pa).
  assert (Lt : lookup t option_strings = None).
  { destruct (lookup t option_strings) as [b|] eqn:E; [|reflexivity]. exfalso. apply Nl. apply long_In. exists b. split; [apply lookup_In, E|]. exists p. exact Et. }
  assert (Lw : lookup (t ++ w) option_strings = None).
  { destruct W as [-> |(v & ->)]; [rewrite app_nil_r; exact Lt|]. destruct (lookup (t ++ lit "=" ++ v) option_strings) as [b|] eqn:E; [|reflexivity]. exfalso. apply lookup_In in E.
    assert (Lg : long_option (t ++ lit "=" ++ v)) by (apply long_In; exists b; split; [exact E|]; exists (p ++ lit "=" ++ v); rewrite Et, <- app_assoc; reflexivity).
    apply (no_equal _ Lg). apply in_or_app. right. left. reflexivity. }
  assert (So : startswith t o = true) by (rewrite Et; apply (begins_iff p o Np); rewrite <- Et; split; [exists p; auto|exists q; exact Eq]).
  assert (So' : startswith t o' = true) by (rewrite Et; apply (begins_iff p o' Np); rewrite <- Et; exact Bo').
  assert (P : parse_optional (t ++ w) = Err SystemExit).
  { assert (T2 : exists u v z, get_option_tuples (t ++ w) = u :: v :: z).
    { rewrite (tuples_is p (t ++ w) arg); [|rewrite <- Et; exact Pa|exists (p ++ w); rewrite Et, <- app_assoc; reflexivity].
      rewrite <- Et. apply (two_found (fun oa => startswith t (fst oa)) (tuple arg) option_strings (o, a) (o', a') Io Io'); [intros E; injection E as E _; contradiction|exact So|exact So']. }
    destruct T2 as (u & v & z & T2). unfold parse_optional. rewrite Lw, Pa, Lt, T2. rewrite Et. change ((lit "--" ++ p) ++ w) with (45%N :: 45%N :: p ++ w). change (negb (45 =? 45)%N) with false. cbv iota.
    destruct arg; reflexivity. }
  assert (Nw : t ++ w <> lit "--") by (rewrite Et; destruct p; [congruence|discriminate]).
  assert (Me : forall l, ~ In (lit "--") l -> marks (l ++ (t ++ w) :: rest) = Err SystemExit).
  { assert (Ms : forall l e, marks l = Err e -> e = SystemExit).
    { clear. induction l as [|x l IH]; intros e H; [discriminate|]. cbn [marks] in H. destruct (str_eqb x (lit "--")); [discriminate|].
      destruct (parse_optional x) as [y|e'] eqn:Ep; cbn [bind] in H.
      - destruct (marks l) as [m|e'] eqn:Em; cbn [bind] in H; [discriminate|]. injection H as <-. exact (IH e' eq_refl).
      - injection H as <-. unfold parse_optional in Ep. destruct x as [|c r]; [discriminate|]. destruct (negb (c =? 45)%N); [discriminate|]. destruct (lookup (c :: r) option_strings); [discriminate|].
        destruct r as [|d r]; [discriminate|]. destruct (partition_eq (c :: d :: r)) as [b k]. destruct k as [k|]; [destruct (lookup b option_strings); [discriminate|]|];
          destruct (get_option_tuples (c :: d :: r)) as [|? [|? ?]]; try discriminate; try (injection Ep as <-; reflexivity);
          destruct (negative_number (c :: d :: r)); try discriminate; destruct (cmem 32%N (c :: d :: r)); discriminate. }
    induction l as [|x l IH]; intros Nx.
    - cbn [marks app]. destruct (str_eqb (t ++ w) (lit "--")) eqn:E; [apply str_eqb_eq in E; contradiction|]. rewrite P. reflexivity.
    - cbn [marks app]. destruct (str_eqb x (lit "--")) eqn:E; [apply str_eqb_eq in E; destruct Nx; left; exact E|].
      destruct (parse_optional x) as [y|e] eqn:Ep; cbn [bind]; [rewrite IH by (intros I; apply Nx; right; exact I); reflexivity|].
      assert (M1 : marks [x] = Err e) by (cbn [marks]; rewrite E, Ep; reflexivity). rewrite (Ms [x] e M1). reflexivity. }
  unfold parse_args. rewrite (Me args N). reflexivity.
Qed.
Print Assumptions C104_ambiguous.
(** --json, --js and --j are the same; --ty=movie is --type=movie; --ex, for --expected-title and --excludes, is refused *)
Lemma starts_only t : forallb (fun oa => negb (startswith t (fst oa))) option_strings = true -> forall o, long_option o -> begins t o -> False.
Proof.
  intros H o L [(p & Np & Et) B]. apply long_In in L as (a & I & _). rewrite forallb_forall in H. specialize (H _ I). cbn [fst] in H.
  assert (X : startswith t o = true) by (rewrite Et; apply (begins_iff p o Np); rewrite <- Et; split; [exists p; auto|exact B]). rewrite X in H. discriminate.
Qed.
Lemma only_one t o : (exists p, p <> [] /\ t = lit "--" ++ p) -> long_option o -> filter (startswith t) (map fst option_strings) = [o] -> short_for t o.
Proof.
  intros T L F. assert (K : forall o', In o' (map fst option_strings) -> startswith t o' = true -> o' = o).
  { intros o' I St. assert (X : In o' (filter (startswith t) (map fst option_strings))) by (apply filter_In; auto). rewrite F in X. destruct X as [X|[]]; auto. }
  destruct T as (p & Np & Et). split; [exact L|]. split.
  - assert (X : In o (filter (startswith t) (map fst option_strings))) by (rewrite F; left; reflexivity). apply filter_In in X as [_ X]. rewrite Et in *. apply (begins_iff p o Np), X.
  - intros o' L' B. apply K; [apply long_In in L' as (a & I & _); apply (in_map fst) in I; exact I|]. rewrite Et in *. apply (begins_iff p o' Np), B.
Qed.
Example C104_short_ex : Forall2 in_full [lit "a.avi"; lit "--js"; lit "--ty=movie"; lit "--inc"; lit "title"] [lit "a.avi"; lit "--json"; lit "--type=movie"; lit "--includes"; lit "title"] /\ ambiguous (lit "--ex") /\
  is_ok (parse_args [lit "a.avi"; lit "--js"; lit "--ty=movie"; lit "--inc"; lit "title"]) = true.
Proof.
  assert (J : long_option (lit "--json")) by (left; exists (lit "json"), Switch, "json"%string, "j"%string, "json"%string; split; [vm_compute; tauto|split; reflexivity]).
  assert (T : long_option (lit "--type")) by (left; exists (lit "type"), Setting, "type"%string, "t"%string, "type"%string; split; [vm_compute; tauto|split; reflexivity]).
  assert (I : long_option (lit "--includes")) by (left; exists (lit "includes"), Collected, "includes"%string, ""%string, "includes"%string; split; [vm_compute; tauto|split; reflexivity]).
  assert (X : long_option (lit "--excludes")) by (left; exists (lit "excludes"), Collected, "excludes"%string, ""%string, "excludes"%string; split; [vm_compute; tauto|split; reflexivity]).
  assert (E : long_option (lit "--expected-title")) by (left; exists (lit "expected_title"), Collected, "expected_title"%string, "T"%string, "expected-title"%string; split; [vm_compute; tauto|split; reflexivity]).
  assert (Ps : forall t : string, t <> EmptyString -> exists p, p <> [] /\ lit "--" ++ lit t = lit "--" ++ p) by (intros t Nt; exists (lit t); split; [destruct t; [congruence|discriminate]|reflexivity]).
  split; [|split].
  - constructor; [apply as_is|]. constructor; [apply name_only, only_one; [apply (Ps "js"%string); discriminate|exact J|vm_compute; reflexivity]|].
    constructor; [apply (with_value (lit "--ty") (lit "--type") (lit "movie")), only_one; [apply (Ps "ty"%string); discriminate|exact T|vm_compute; reflexivity]|].
    constructor; [apply name_only, only_one; [apply (Ps "inc"%string); discriminate|exact I|vm_compute; reflexivity]|]. constructor; [apply as_is|constructor].
  - split; [|exists (lit "--excludes"), (lit "--expected-title"); split; [exact X|split; [exact E|split; [discriminate|]]]].
    + intros [(d & u & n & x & y & H & -> & H2)|H2]; [each H; discriminate H2|discriminate H2].
    + split; (split; [apply (Ps "ex"%string); discriminate|]); [exists (lit "cludes")|exists (lit "pected-title")]; reflexivity.
  - vm_compute. reflexivity.
Qed.
