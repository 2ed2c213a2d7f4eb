(** C90: configured keywords are recognised wherever they stand alone, and only what is written is reported. *)
From Verif Require Import Py PyFacts Text TextFacts WordsProofs Regex CrcProofs DateProofs RegexFacts Rebulk EpisodeRulesProps Patterns PatternsProps PatternConf Keyword KeywordProofs.
From Coq Require Import Arith ZifyBool ZifyNat ZifyN.
Local Open Scope nat_scope.

(** ** Specification: the texts an expression stands for *)
(** [t] is one of the texts of the expression, when [after] follows it *)
Fixpoint spells (k : kre) (t after : str) : Prop :=
  match k with
  | KEps => t = []
  | KItem i => exists c, t = [c] /\ accepts i c = true
  | KSeq a b => exists u v, t = u ++ v /\ spells a u (v ++ after) /\ spells b v after
  | KAlt a b => spells a t after \/ spells b t after
  | KOpt a => spells a t after \/ t = []
  | KGrp _ _ a => spells a t after
  | KEol => t = [] /\ (after = [] \/ after = [10%N])
  | KNot i => t = [] /\ match after with c :: _ => accepts i c = false | [] => True end
  | KLook a => t = [] /\ exists u v, after = u ++ v /\ spells a u v
  end.
(** it is written from [a] to [b] in [s] *)
Definition written (k : kre) (s : str) (a b : nat) : Prop :=
  exists before t after, s = before ++ t ++ after /\ a = List.length before /\ b = a + List.length t /\ spells k t after.

(** ** the matcher agrees *)
Lemma eol_iff (s : str) i : i <= List.length s -> at_eol s i = true <-> skipn i s = [] \/ skipn i s = [10%N].
Proof.
  intros L. unfold at_eol. rewrite Bool.orb_true_iff, Bool.andb_true_iff, !Nat.eqb_eq. split.
  - intros [->|[E1 E2]]; [left; apply skipn_all|right]. destruct (nth_error s i) as [c|] eqn:E; [|discriminate]. apply N.eqb_eq in E2. subst c.
    rewrite (skipn_nth s i 10%N E). rewrite E1. rewrite skipn_all. reflexivity.
  - intros [E|E].
    + left. assert (H : List.length (skipn i s) = 0) by (rewrite E; reflexivity). rewrite skipn_length in H. lia.
    + right. assert (H : List.length (skipn i s) = 1) by (rewrite E; reflexivity). rewrite skipn_length in H. split; [lia|].
      rewrite <- (firstn_skipn i s), E, nth_error_app2, firstn_length_le, Nat.sub_diag by (rewrite ?firstn_length_le; lia). reflexivity.
Qed.
Lemma rest_split (s : str) i j : i <= j -> slice i j s ++ skipn j s = skipn i s.
Proof. intros L. unfold slice. replace (skipn j s) with (skipn (j - i) (skipn i s)) by (rewrite skipn_skipn'; f_equal; lia). apply firstn_skipn. Qed.
Lemma M_spells s k : forall i c j, i <= List.length s -> (exists d, M s (kre_re k) i c j d) <-> i <= j <= List.length s /\ spells k (slice i j s) (skipn j s).
Proof.
  assert (Z : forall i (s : str), slice i i s = []) by (intros i s'; unfold slice; rewrite Nat.sub_diag; reflexivity).
  assert (Z' : forall i j, i <= j <= List.length s -> slice i j s = [] -> j = i) by (intros i j L E; apply (f_equal (@List.length N)) in E; rewrite slice_len in E by lia; cbn in E; lia).
  induction k as [|it|a IHa b IHb|a IHa b IHb|a IHa|n nm a IHa| |it|a IHa]; intros i c j L; cbn [kre_re spells].
  - split; [intros [d H]; inversion H; subst; rewrite Z; auto with arith|]. intros [Lj E]. apply (Z' i j Lj) in E as ->. exists c. constructor.
  - split.
    + intros [d H]. apply M_chr_inv in H as (-> & -> & x & E & A). pose proof (nth_error_lt _ _ _ E). split; [lia|]. exists x. split; [apply slice_one, E|exact A].
    + intros [Lj (x & E & A)]. assert (El : j = S i) by (apply (f_equal (@List.length N)) in E; rewrite slice_len in E by lia; cbn in E; lia). subst j. exists c. econstructor; [|exact A].
      assert (R : reads s i (S i) [x]) by (split; [lia|exact E]). apply reads_one in R. tauto.
  - split.
    + intros [d H]. apply M_seq_inv in H as (m & e & H1 & H2). pose proof (M_mono _ _ _ _ _ _ H1) as [L1 L1']. specialize (L1' L). pose proof (M_mono _ _ _ _ _ _ H2) as [L2 L2']. specialize (L2' L1').
      split; [lia|]. exists (slice i m s), (slice m j s). split; [apply slice_app; lia|]. rewrite (rest_split s m j L2). split; [apply (IHa i c m L); eauto|apply (IHb m e j L1'); eauto].
    + intros [Lj (u & v & E & H1 & H2)]. assert (R : reads s i j (u ++ v)) by (split; [exact Lj|exact E]). apply reads_app in R as (m & [Lu <-] & [Lv <-]).
      rewrite (rest_split s m j) in H1 by lia. destruct (proj2 (IHa i c m L)) as [e H3]; [split; [lia|exact H1]|]. destruct (proj2 (IHb m e j ltac:(lia))) as [d H4]; [split; [lia|exact H2]|]. exists d. econstructor; eassumption.
  - split.
    + intros [d H]. apply M_alt_inv in H as [H|H]; [destruct (proj1 (IHa i c j L)) as [A B]|destruct (proj1 (IHb i c j L)) as [A B]]; eauto.
    + intros [Lj [H|H]]; [destruct (proj2 (IHa i c j L)) as [d Hd]|destruct (proj2 (IHb i c j L)) as [d Hd]]; auto; exists d; [apply M_alt_l|apply M_alt_r]; exact Hd.
  - split.
    + intros [d H]. apply M_alt_inv in H as [H|H]; [destruct (proj1 (IHa i c j L)) as [A B]; eauto|]. inversion H; subst. rewrite Z. auto with arith.
    + intros [Lj [H|H]]; [destruct (proj2 (IHa i c j L)) as [d Hd]; auto; exists d; apply M_alt_l, Hd|]. apply (Z' i j Lj) in H as ->. exists c. apply M_alt_r. constructor.
  - split.
    + intros [d H]. apply M_grp_inv in H as (e & -> & H). apply (IHa i c j L). eauto.
    + intros H. apply (IHa i c j L) in H as [d H]. eexists. constructor. exact H.
  - split.
    + intros [d H]. inversion H as [| | | | | | | | |i' c' E| |]; subst. rewrite Z. split; [lia|]. split; [reflexivity|]. apply eol_iff; assumption.
    + intros (Lj & E & F). apply (Z' i j Lj) in E as ->. exists c. constructor. apply eol_iff; assumption.
  - assert (N : match nth_error s i with Some x => negb (accepts it x) | None => true end = true <-> match skipn i s with x :: _ => accepts it x = false | [] => True end).
    { destruct (nth_error s i) as [x|] eqn:E; [rewrite (skipn_nth s i x E), Bool.negb_true_iff; reflexivity|]. apply nth_error_None in E. rewrite skipn_all2 by exact E. split; auto. }
    split.
    + intros [d H]. inversion H as [| | | | | | | | | |p' i' c' E|]; subst. rewrite Z. split; [lia|]. split; [reflexivity|]. apply N. exact E.
    + intros (Lj & E & F). apply (Z' i j Lj) in E as ->. exists c. constructor. apply N. exact F.
  - split.
    + intros [d H]. inversion H as [| | | | | | | | | | |a' i' c' m e H1]; subst. rewrite Z. split; [lia|]. split; [reflexivity|].
      destruct (proj1 (IHa j d m L)) as [Lm S]; [eauto|]. exists (slice j m s), (skipn m s). split; [symmetry; apply rest_split; lia|exact S].
    + intros (Lj & E & u & v & F & S). apply (Z' i j Lj) in E as ->. exists c.
      assert (Lu : i + List.length u <= List.length s) by (apply (f_equal (@List.length N)) in F; rewrite skipn_length, app_length in F; lia).
      destruct (proj2 (IHa i c (i + List.length u) L)) as [e H].
      * split; [lia|]. unfold slice. replace (i + List.length u - i) with (List.length u) by lia. rewrite F, firstn_app, firstn_all, Nat.sub_diag. cbn [firstn]. rewrite app_nil_r.
        replace (skipn (i + List.length u) s) with (skipn (List.length u) (skipn i s)) by (rewrite skipn_skipn'; reflexivity). rewrite F, skipn_app, skipn_all, Nat.sub_diag. exact S.
      * econstructor. exact H.
Qed.
Lemma written_iff k s a b : written k s a b <-> a <= List.length s /\ exists d, M s (kre_re k) a [] b d.
Proof.
  unfold written. split.
  - intros (u & t & v & -> & -> & -> & S). split; [rewrite app_length; lia|]. apply M_spells; [rewrite app_length; lia|]. split; [rewrite !app_length; lia|].
    unfold slice. rewrite skipn_app, skipn_all, Nat.sub_diag. cbn [app skipn]. replace (List.length u + List.length t - List.length u) with (List.length t) by lia. rewrite firstn_app, firstn_all, Nat.sub_diag. cbn [firstn]. rewrite app_nil_r.
    replace (skipn (List.length u + List.length t) (u ++ t ++ v)) with v; [exact S|]. rewrite <- skipn_skipn'. rewrite skipn_app, skipn_all, Nat.sub_diag. cbn [app skipn]. rewrite skipn_app, skipn_all, Nat.sub_diag. reflexivity.
  - intros [L H]. apply M_spells in H as [Lb S]; [|exact L]. exists (firstn a s), (slice a b s), (skipn b s). rewrite rest_split, firstn_skipn, firstn_length_le, slice_len by lia. split; [reflexivity|]. split; [reflexivity|]. split; [lia|exact S].
Qed.
(** a text stands for itself, in any case if the case is ignored *)
Lemma text_spells ic t : forall u after, spells (text_kre ic t) u after <-> (if ic then lower u = lower t else u = t).
Proof.
  induction t as [|c t IH]; intros u after; cbn [text_kre spells].
  - destruct ic; [|reflexivity]. split; [intros ->; reflexivity|]. cbn. destruct u; [reflexivity|discriminate].
  - split.
    + intros (x & v & -> & (d & -> & A) & S). apply IH in S. destruct ic; cbn [accepts] in A; apply N.eqb_eq in A; cbn [app]; [unfold lower in *; cbn [map]; rewrite A, S; reflexivity|rewrite A, S; reflexivity].
    + intros E. destruct u as [|d u]; [destruct ic; discriminate|]. exists [d], u. split; [reflexivity|]. destruct ic.
      * cbn [lower map] in E. injection E as E1 E2. split; [exists d; split; [reflexivity|cbn; apply N.eqb_eq, E1]|apply IH; exact E2].
      * injection E as -> ->. split; [exists c; split; [reflexivity|cbn; apply N.eqb_refl]|apply IH; reflexivity].
Qed.
Lemma occurs_written (ic : bool) (t s : str) (a : nat) : t <> [] -> occurs (if ic then lower t else t) (if ic then lower s else s) a <-> written (text_kre ic t) s a (a + List.length t).
Proof.
  intros Ht. rewrite occurs_iff by (destruct ic; [destruct t; [congruence|discriminate]|exact Ht]). rewrite written_iff.
  assert (L1 : List.length (if ic then lower t else t) = List.length t) by (destruct ic; [apply lower_length|reflexivity]).
  assert (L2 : List.length (if ic then lower s else s) = List.length s) by (destruct ic; [apply lower_length|reflexivity]). rewrite L1, L2.
  assert (Sl : slice a (a + List.length t) (if ic then lower s else s) = if ic then lower (slice a (a + List.length t) s) else slice a (a + List.length t) s).
  { destruct ic; [|reflexivity]. unfold slice, lower. rewrite skipn_map, firstn_map. reflexivity. }
  rewrite Sl. split.
  - intros [E L]. split; [lia|]. apply M_spells; [lia|]. split; [lia|]. apply text_spells. destruct ic; exact E.
  - intros [L H]. apply M_spells in H as [Lb S]; [|exact L]. apply text_spells in S. split; [destruct ic; exact S|lia].
Qed.
Lemma text_written (ic : bool) (t s : str) (a b : nat) : written (text_kre ic t) s a b -> b = a + List.length t.
Proof.
  intros (u & x & v & _ & -> & -> & S). apply text_spells in S. destruct ic; [|subst; reflexivity]. apply (f_equal (@List.length N)) in S. rewrite !lower_length in S. lia.
Qed.

(** ** what is found *)
Definition kw_wf (K : kw) : Prop := forall ic t, kw_text K = Some (ic, t) -> t <> [] /\ kw_kre K = text_kre ic t.
Lemma text_caps (ic : bool) (s t : str) : forall a c b d, M s (kre_re (text_kre ic t)) a c b d -> d = c.
Proof.
  induction t as [|x t IH]; intros a c b d H; cbn [text_kre kre_re] in H; [inversion H; reflexivity|]. apply M_seq_inv in H as (m & e & H1 & H2). apply M_chr_inv in H1 as (-> & _). exact (IH _ _ _ _ H2).
Qed.
(** no text of the keyword that starts before reaches it, and none from the same place is longer *)
Definition free (k : kre) (s : str) (a b : nat) : Prop :=
  (forall a' b', written k s a' b' -> a' < a -> b' <= a) /\ (forall b', written k s a b' -> b' <= b).
Lemma kw_found K s : kw_wf K -> solid (kw_kre K) = true -> exists fs, kw_find K s = Ok fs /\
  (forall a b c, In (a, b, c) fs -> a < b <= List.length s /\ M s (kre_re (kw_kre K)) a [] b c) /\
  (forall a b, written (kw_kre K) s a b -> (greedy (kw_kre K) = true /\ free (kw_kre K) s a b) \/ (kre_ok (kw_kre K) = true /\ alone s a b) -> exists c, In (a, b, c) fs).
Proof.
  intros Wf Hs. unfold kw_find. destruct (kw_text K) as [[ic t]|] eqn:Et.
  - destruct (Wf ic t Et) as [Nt Ek]. rewrite Ek in *. clear Wf. unfold find_all.
    set (s' := if ic then lower s else s). set (t' := if ic then lower t else t).
    assert (Ls : List.length s' = List.length s) by (unfold s'; destruct ic; [apply lower_length|reflexivity]).
    assert (Lt : List.length t' = List.length t) by (unfold t'; destruct ic; [apply lower_length|reflexivity]).
    assert (Nt' : t' <> []) by (intros E; apply Nt; destruct t; [reflexivity|]; rewrite E in Lt; discriminate).
    destruct (find_all_loop_spec t' s' Nt' (S (S (List.length s'))) 0 ltac:(lia) ltac:(lia)) as (l & E & F1 & _ & F3). rewrite E. cbn [bind]. eexists. split; [reflexivity|]. split.
    + intros a b c H. apply in_map_iff in H as (x & Hx & Hi). injection Hx as -> <- <-. rewrite Forall_forall in F1. destruct (F1 a Hi) as [_ Oc]. apply (occurs_written ic t s a Nt) in Oc. apply written_iff in Oc as [La [d HM]].
      assert (b0 : a + List.length t <= List.length s) by (apply M_mono in HM; apply HM, La). split; [destruct t; [congruence|cbn [List.length] in *; lia]|].
      rewrite (text_caps ic s t _ _ _ _ HM) in HM. exact HM.
    + intros a b W Or. pose proof (text_written ic t s a b W) as ->. pose proof W as W'. apply (occurs_written ic t s a Nt) in W'. destruct (F3 a ltac:(lia) W') as (i & Hi & Li). rewrite Lt in Li.
      assert (i = a) as ->; [|exists []; apply in_map_iff; exists a; split; [reflexivity|exact Hi]].
      destruct (Nat.eq_dec i a) as [|Ni]; [assumption|exfalso]. rewrite Forall_forall in F1. destruct (F1 i Hi) as [_ Oi]. apply (occurs_written ic t s i Nt) in Oi. pose proof Oi as Wi. destruct Or as [[_ [Fr _]]|[Hk [A B]]].
      { specialize (Fr i (i + List.length t) Wi ltac:(lia)). lia. }
      apply written_iff in Oi as [Loi [d1 M1]]. apply written_iff in W as [La [d2 M2]].
      destruct (M_alt s (text_kre ic t) i _ _ M1 Loi) as (x & Hx & Ox & Ex), (M_alt s (text_kre ic t) a _ _ M2 La) as (y & Hy & Oy & Ey). unfold alt_ok in Ox, Oy. apply Bool.andb_true_iff in Ox as [Ix _], Oy as [Iy _].
      destruct (kre_ok_parts (text_kre ic t) Hk) as (_ & _ & U). assert (h : hides (al_items x) (al_items y) = true) by (apply (hides_true s i _ _ a Ix Iy); [lia|]; intros c Ec; apply (A c); [lia|exact Ec]).
      rewrite (unhidden_pair _ (al_items x) (al_items y) U) in h; [discriminate|apply in_map, Hx|apply in_map, Hy].
  - eexists. split; [reflexivity|]. split.
    + intros a b c H. apply finditer_sound in H as (L & _ & HM); [|exact (kre_consumes s (kw_kre K) Hs)]. auto.
    + intros a b W [[Gr [F1 F2]]|[Hk Al]]; apply written_iff in W as [La [d HM]]; [|exact (kre_found s (kw_kre K) Hs a b d Hk Al La HM)].
      apply (kre_longest s (kw_kre K) Hs a b d Gr La HM).
      * intros a' b' e La' HM'. apply (F1 a' b'); [|exact La']. apply written_iff. split; [lia|eauto].
      * intros b' e HM'. apply F2. apply written_iff. eauto.
Qed.

(** ** what is reported *)
(** a validator that accepts what stands alone, and one that accepts nothing else *)
Definition lenient (v : validator) : Prop :=
  match v with NoValidator => True | Plain f | ForParent f => forall s m, alone s (m_start m) (m_end m) -> f s m = true end.
Definition strict (v : validator) : Prop :=
  match v with NoValidator => False | Plain f | ForParent f => forall s m, f s m = true -> alone s (m_start m) (m_end m) end.
Lemma before_alone s m a b : m_start m = a -> m_end m = b -> alone s a b -> seps_before s m = true /\ seps_after s m = true /\ seps_surround s m = true.
Proof.
  intros <- <- Al. pose proof Al as Al'. apply seps_alone in Al'. split; [|split; [|exact Al']]; unfold seps_surround, chars_surround in Al'; apply Bool.andb_true_iff in Al' as [A B]; assumption.
Qed.
Lemma named_lenient t f : named_validator t = Some f -> forall s m, alone s (m_start m) (m_end m) -> f s m = true.
Proof.
  unfold named_validator. intros H s m Al. destruct (before_alone s m _ _ eq_refl eq_refl Al) as (A & B & C).
  destruct (str_eqb t (lit "import:seps_surround")); [injection H as <-; exact C|]. destruct (str_eqb t (lit "import:seps_after")); [injection H as <-; exact B|]. destruct (str_eqb t (lit "import:seps_before")); [injection H as <-; exact A|discriminate].
Qed.
Lemma validator_lenient B opts v : lenient (b_validator B) -> validator_of B opts = Some v -> lenient v.
Proof.
  intros HB. unfold validator_of. destruct (dget opts (KS (lit "validator"))) as [x|]; [|intros H; injection H as <-; exact HB].
  destruct x as [|b|z|q|t|t|l|d]; try discriminate; [intros H; injection H as <-; exact I| |].
  - destruct (named_validator t) as [f|] eqn:E; [|discriminate]. intros H; injection H as <-. exact (named_lenient t f E).
  - destruct d as [|[[p|p] [|b|z|q|t|t|l|d']] [|kv d]]; try discriminate. destruct (str_eqb p (lit "__parent__")); [|discriminate].
    destruct (named_validator t) as [f|] eqn:E; [|discriminate]. intros H; injection H as <-. exact (named_lenient t f E).
Qed.

Lemma kw_of_inv B ty p opts K : kw_of B ty p opts = Some K -> exists t v tags value ch pp va ic nm, p = VStr t /\ t <> [] /\
  validator_of B opts = Some v /\ tags_of B opts = Some tags /\ value_of_opt opts = Some value /\
  flag_of (b_children B) (dget opts (KS (lit "children"))) = Some ch /\ flag_of (b_private_parent B) (dget opts (KS (lit "private_parent"))) = Some pp /\
  flag_of (b_validate_all B) (dget opts (KS (lit "validate_all"))) = Some va /\ flag_of true (dget opts (KS (lit "ignore_case"))) = Some ic /\
  (match dget opts (KS (lit "name")) with None => Some (b_name B) | Some (VStr n) => Some n | Some _ => None end) = Some nm /\
  (if str_eqb ty (lit "string") then kw_kre K = text_kre ic t /\ kw_text K = Some (ic, t) else kre_of t = Some (kw_kre K) /\ kw_text K = None) /\
  kw_rx K = mk_rx (kre_re (kw_kre K)) (map (fun g => (fst g, match snd g with [] => nm | n => n end)) (kre_groups (kw_kre K))) nm tags ch pp va value
                  (match v with NoValidator => always | Plain f | ForParent f => f end) (match v with Plain f => f | NoValidator | ForParent _ => always end).
Proof.
  unfold kw_of. destruct p as [|b|z|q|t|t|l|d]; try discriminate. destruct (str_eqb t []) eqn:Et; [discriminate|]. cbn [orb].
  destruct (negb _); [discriminate|]. destruct (validator_of B opts) as [v|]; [|discriminate]. destruct (tags_of B opts) as [tags|]; [|discriminate]. destruct (value_of_opt opts) as [value|]; [|discriminate].
  destruct (flag_of (b_children B) _) as [ch|]; [|discriminate]. destruct (flag_of (b_private_parent B) _) as [pp|]; [|discriminate]. destruct (flag_of (b_validate_all B) _) as [va|]; [|discriminate]. destruct (flag_of true _) as [ic|]; [|discriminate].
  destruct (match dget opts (KS (lit "name")) with None => _ | _ => _ end) as [nm|]; [|discriminate].
  destruct (str_eqb ty (lit "string")) eqn:Ety.
  - intros H. assert (N : t <> []) by (intros ->; discriminate Et). injection H as <-. exists t, v, tags, value, ch, pp, va, ic, nm. rewrite ?Ety. cbn [kw_kre kw_text kw_rx]. repeat (split; [first [reflexivity|exact N|split; reflexivity]|]). reflexivity.
  - destruct (kre_of t) as [k|] eqn:Ek; [|discriminate]. intros H. assert (N : t <> []) by (intros ->; discriminate Et). injection H as <-. exists t, v, tags, value, ch, pp, va, ic, nm. rewrite ?Ety. cbn [kw_kre kw_text kw_rx].
    repeat (split; [first [reflexivity|exact N|split; [exact Ek|reflexivity]]|]). reflexivity.
Qed.
Lemma kw_of_wf B ty p opts K : kw_of B ty p opts = Some K -> kw_wf K.
Proof.
  intros H. apply kw_of_inv in H as (t & v & tags & value & ch & pp & va & ic & nm & -> & N & _ & _ & _ & _ & _ & _ & _ & _ & E & _). intros ic' t' Et. destruct (str_eqb ty (lit "string")); destruct E as [E1 E2]; [|congruence].
  rewrite E2 in Et. injection Et as <- <-. auto.
Qed.

(** an entry that names one value for the property, and reports the whole match *)
Definition gives (opts : dict) (name : str) (v : str) : Prop :=
  dget opts (KS (lit "value")) = Some (VStr v) \/ exists d, dget opts (KS (lit "value")) = Some (VDict d) /\ dget d (KS name) = Some (VStr v).
Definition whole (B : builder) (opts : dict) : Prop :=
  b_children B = false /\ dget opts (KS (lit "children")) = None /\ dget opts (KS (lit "name")) = None /\
  b_validate_all B = false /\ dget opts (KS (lit "validate_all")) = None.
Lemma gives_value opts value name v t : value_of_opt opts = Some value -> gives opts name v -> value name t = MvStr v.
Proof.
  unfold value_of_opt. intros H [E|(d & E & D)]; rewrite E in H.
  - injection H as <-. reflexivity.
  - destruct (forallb _ d); [|discriminate]. injection H as <-. rewrite D. reflexivity.
Qed.
(** ** C90 *)
(** a keyword standing alone is reported, with its place and the value of its entry *)
Theorem C90_alone B ty p opts K v s a b :
  kw_of B ty p opts = Some K -> solid (kw_kre K) = true -> lenient (b_validator B) -> whole B opts -> gives opts (b_name B) v ->
  alone s a b -> written (kw_kre K) s a b -> kre_ok (kw_kre K) = true \/ (greedy (kw_kre K) = true /\ free (kw_kre K) s a b) ->
  exists ms, kw_matches K s = Ok ms /\ shows ms a b (b_name B) (MvStr v).
Proof.
  intros HK Ok0 HL (W1 & W2 & W3 & W4 & W5) G Al W Or. pose proof (kw_of_wf B ty p opts K HK) as Wf. destruct (kw_found K s Wf Ok0) as (fs & E & _ & F). unfold kw_matches. rewrite E. cbn [bind]. eexists. split; [reflexivity|].
  destruct (F a b W ltac:(tauto)) as [c Hc]. apply kw_of_inv in HK as (t & vd & tags & value & ch & pp & va & ic & nm & -> & N & V1 & V2 & V3 & V4 & V5 & V6 & V7 & V8 & _ & R).
  rewrite W1, W2 in V4. cbn [flag_of] in V4. injection V4 as <-. rewrite W3 in V8. injection V8 as <-. rewrite W4, W5 in V6. cbn [flag_of] in V6. injection V6 as <-.
  exists (rx_parent (kw_rx K) s a b c). assert (Hv : rx_valid (kw_rx K) s (rx_parent (kw_rx K) s a b c) = true).
  { pose proof (validator_lenient B opts vd HL V1) as Hl. rewrite R. cbn [rx_valid]. destruct vd as [|f|f]; [reflexivity| |]; apply Hl; exact Al. }
  split.
  - apply in_flat_map. exists (a, b, c). split; [exact Hc|]. unfold rx_one. rewrite Hv. replace (rx_children (kw_rx K)) with false by (rewrite R; reflexivity). cbn [negb orb andb].
    replace (rx_validate_all (kw_rx K)) with false by (rewrite R; reflexivity). left; reflexivity.
  - split; [reflexivity|]. split; [reflexivity|]. split; [rewrite R; reflexivity|]. split; [|rewrite R; reflexivity]. unfold rx_parent. cbn [m_value]. replace (rx_children (kw_rx K)) with false by (rewrite R; reflexivity).
    replace (rx_name (kw_rx K)) with (b_name B) by (rewrite R; reflexivity). replace (rx_value (kw_rx K)) with value by (rewrite R; reflexivity). apply (gives_value opts value _ v _ V3 G).
Qed.
Print Assumptions C90_alone.

(** only what is written is reported, with the name of the property and the value of the entry; alone if the entry asks for it *)
Theorem C90_only B ty p opts K v s ms a b n x :
  kw_of B ty p opts = Some K -> solid (kw_kre K) = true -> whole B opts -> gives opts (b_name B) v ->
  kw_matches K s = Ok ms -> shows ms a b n x ->
  written (kw_kre K) s a b /\ n = b_name B /\ x = MvStr v /\ (forall vd, validator_of B opts = Some vd -> strict vd -> alone s a b).
Proof.
  intros HK Ok0 (W1 & W2 & W3 & W4 & W5) G E (m & Hm & <- & <- & <- & <- & Pm). pose proof (kw_of_wf B ty p opts K HK) as Wf. destruct (kw_found K s Wf Ok0) as (fs & Ef & F & _). unfold kw_matches in E. rewrite Ef in E. cbn [bind] in E. injection E as <-.
  apply in_flat_map in Hm as ([[a b] c] & Hf & Hm). destruct (F a b c Hf) as [L HM].
  apply kw_of_inv in HK as (t & vd & tags & value & ch & pp & va & ic & nm & -> & N & V1 & V2 & V3 & V4 & V5 & V6 & V7 & V8 & _ & R).
  rewrite W1, W2 in V4. cbn [flag_of] in V4. injection V4 as <-. rewrite W3 in V8. injection V8 as <-. rewrite W4, W5 in V6. cbn [flag_of] in V6. injection V6 as <-.
  unfold rx_one in Hm. replace (rx_children (kw_rx K)) with false in Hm by (rewrite R; reflexivity). replace (rx_validate_all (kw_rx K)) with false in Hm by (rewrite R; reflexivity). cbn [negb orb andb] in Hm.
  destruct (rx_valid (kw_rx K) s (rx_parent (kw_rx K) s a b c)) eqn:Ev; [|destruct Hm]. destruct Hm as [<-|[]].
  cbn [rx_parent m_start m_end m_name m_value]. split; [apply written_iff; split; [lia|eauto]|]. split; [rewrite R; reflexivity|]. split.
  - replace (rx_children (kw_rx K)) with false by (rewrite R; reflexivity). replace (rx_name (kw_rx K)) with (b_name B) by (rewrite R; reflexivity). replace (rx_value (kw_rx K)) with value by (rewrite R; reflexivity). apply (gives_value opts value _ v _ V3 G).
  - intros vd' E S. rewrite V1 in E. injection E as <-. rewrite R in Ev. cbn [rx_valid] in Ev. destruct vd as [|f|f]; [destruct S| |]; exact (S s _ Ev).
Qed.
Print Assumptions C90_only.
(** when the entry asks for separators on both sides, this is exact *)
Theorem C90_exact B ty p opts K v s a b n x :
  kw_of B ty p opts = Some K -> kre_ok (kw_kre K) = true -> whole B opts -> gives opts (b_name B) v -> validator_of B opts = Some (Plain seps_surround) ->
  (exists ms, kw_matches K s = Ok ms /\ shows ms a b n x) <-> written (kw_kre K) s a b /\ alone s a b /\ n = b_name B /\ x = MvStr v.
Proof.
  intros HK Ok0 W G V. split.
  - intros (ms & E & Sh). destruct (C90_only B ty p opts K v s ms a b n x HK (proj1 (kre_ok_parts _ Ok0)) W G E Sh) as (A1 & A2 & A3 & A4). split; [exact A1|]. split; [|auto]. apply (A4 _ V). intros s' m H. apply seps_alone, H.
  - intros (Wr & Al & -> & ->).
    (* only the validator of the entry matters *)
    pose (B' := mk_builder (b_name B) (b_tags B) (Plain seps_surround) (b_children B) (b_private_parent B) (b_validate_all B)).
    assert (HK' : kw_of B' ty p opts = Some K).
    { rewrite <- HK. unfold kw_of. replace (validator_of B' opts) with (validator_of B opts); [reflexivity|]. rewrite V. unfold validator_of in *. destruct (dget opts (KS (lit "validator"))); [symmetry; exact V|reflexivity]. }
    apply (C90_alone B' ty p opts K v s a b HK' (proj1 (kre_ok_parts _ Ok0))); try assumption; [|left; exact Ok0]. intros s' m H. apply seps_alone, H.
Qed.
Print Assumptions C90_exact.

(** an entry that reports its groups *)
Definition group_name (name : str) (g : str) : str := match g with [] => name | n => n end.
Theorem C90_groups B ty p opts K vd value s a b :
  kw_of B ty p opts = Some K -> solid (kw_kre K) = true ->
  flag_of (b_children B) (dget opts (KS (lit "children"))) = Some true -> dget opts (KS (lit "name")) = None ->
  validator_of B opts = Some vd -> lenient vd -> (forall f, vd <> Plain f) -> value_of_opt opts = Some value ->
  alone s a b -> written (kw_kre K) s a b -> kre_ok (kw_kre K) = true \/ (greedy (kw_kre K) = true /\ free (kw_kre K) s a b) ->
  exists ms c, kw_matches K s = Ok ms /\ M s (kre_re (kw_kre K)) a [] b c /\
    forall g nm x y, In (g, nm) (kre_groups (kw_kre K)) -> group g c = Some (x, y) ->
      shows ms x y (group_name (b_name B) nm) (value (group_name (b_name B) nm) (slice x y s)).
Proof.
  intros HK Ok0 Ch Nm Vd HL NP Va Al W Or. pose proof (kw_of_wf B ty p opts K HK) as Wf. destruct (kw_found K s Wf Ok0) as (fs & E & Fs & F). unfold kw_matches. rewrite E. cbn [bind]. destruct (F a b W ltac:(tauto)) as [c Hc]. destruct (Fs a b c Hc) as [_ HM].
  eexists _, c. split; [reflexivity|]. split; [exact HM|]. intros g nm x y Hg Eg.
  apply kw_of_inv in HK as (t & vd' & tags & value' & ch & pp & va & ic & nm' & -> & N & V1 & V2 & V3 & V4 & V5 & V6 & V7 & V8 & _ & R).
  rewrite Vd in V1. injection V1 as <-. rewrite Va in V3. injection V3 as <-. rewrite Ch in V4. injection V4 as <-. rewrite Nm in V8. injection V8 as <-.
  assert (Hk : In (mk_c x y (group_name (b_name B) nm) (value (group_name (b_name B) nm) (slice x y s))) (rx_kids (kw_rx K) s c)).
  { unfold rx_kids. apply in_flat_map. exists (g, group_name (b_name B) nm). rewrite R. cbn [rx_names rx_children rx_value fst snd]. split; [apply in_map_iff; exists (g, nm); split; [destruct nm; reflexivity|exact Hg]|]. rewrite Eg. left; reflexivity. }
  eexists. split; [apply in_flat_map; exists (a, b, c); split; [exact Hc|]; unfold rx_one|].
  - replace (rx_children (kw_rx K)) with true by (rewrite R; reflexivity). cbn [negb orb].
    assert (Cv : forallb (rx_child_valid (kw_rx K) s) (map (rx_child (kw_rx K) a b) (rx_kids (kw_rx K) s c)) = true).
    { rewrite R. cbn [rx_child_valid]. destruct vd as [|f|f]; [apply forallb_forall; reflexivity|destruct (NP f eq_refl)|apply forallb_forall; reflexivity]. }
    assert (Pv : (if rx_validate_all (kw_rx K) then rx_valid (kw_rx K) s (rx_parent (kw_rx K) s a b c) else true) = true).
    { destruct (rx_validate_all (kw_rx K)); [|reflexivity]. rewrite R. cbn [rx_valid]. destruct vd as [|f|f]; [reflexivity| |]; apply HL; exact Al. }
    rewrite Cv, Pv. cbn [andb]. apply in_or_app. right. apply in_map. exact Hk.
  - cbn. auto.
Qed.
Print Assumptions C90_groups.
(** and nothing else *)
Theorem C90_groups_only B ty p opts K value s ms x y n v :
  kw_of B ty p opts = Some K -> solid (kw_kre K) = true ->
  flag_of (b_children B) (dget opts (KS (lit "children"))) = Some true -> dget opts (KS (lit "name")) = None -> value_of_opt opts = Some value ->
  kw_matches K s = Ok ms -> shows ms x y n v ->
  exists a b c g nm, written (kw_kre K) s a b /\ M s (kre_re (kw_kre K)) a [] b c /\ In (g, nm) (kre_groups (kw_kre K)) /\ group g c = Some (x, y) /\
    n = group_name (b_name B) nm /\ v = value n (slice x y s).
Proof.
  intros HK Ok0 Ch Nm Va E (m & Hm & <- & <- & <- & <- & Pm). pose proof (kw_of_wf B ty p opts K HK) as Wf. destruct (kw_found K s Wf Ok0) as (fs & Ef & F & _). unfold kw_matches in E. rewrite Ef in E. cbn [bind] in E. injection E as <-.
  apply in_flat_map in Hm as ([[a b] c] & Hf & Hm). destruct (F a b c Hf) as [L HM].
  apply kw_of_inv in HK as (t & vd' & tags & value' & ch & pp & va & ic & nm' & -> & N & V1 & V2 & V3 & V4 & V5 & V6 & V7 & V8 & _ & R).
  rewrite Va in V3. injection V3 as <-. rewrite Ch in V4. injection V4 as <-. rewrite Nm in V8. injection V8 as <-.
  unfold rx_one in Hm. destruct (_ && _); [|destruct Hm]. replace (rx_children (kw_rx K)) with true in Hm by (rewrite R; reflexivity). cbn [negb orb] in Hm. apply in_app_or in Hm as [Hm|Hm].
  - destruct (rx_private_parent (kw_rx K)); [|destruct Hm]. destruct Hm as [<-|[]]. rewrite R in Pm. discriminate Pm.
  - apply in_map_iff in Hm as (k & <- & Hk). unfold rx_kids in Hk. apply in_flat_map in Hk as ([g gn] & Hg & Hk). cbn [fst snd] in Hk. destruct (group g c) as [[x' y']|] eqn:Eg; [|destruct Hk]. destruct Hk as [<-|[]].
    rewrite R in Hg. cbn [rx_names] in Hg. apply in_map_iff in Hg as ([g' nm] & Hg & Hin). injection Hg as -> Hg. cbn [snd] in Hg.
    exists a, b, c, g, nm. cbn [rx_child m_start m_end m_name m_value c_start c_end c_name c_value]. split; [apply written_iff; split; [lia|eauto]|]. split; [exact HM|]. split; [exact Hin|]. split; [exact Eg|]. split; [rewrite <- Hg; destruct nm; reflexivity|].
    replace (rx_children (kw_rx K)) with true by (rewrite R; reflexivity). rewrite R. reflexivity.
Qed.
Print Assumptions C90_groups_only.
