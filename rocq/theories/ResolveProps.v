(** C95: the objects named in a configuration *)
From Verif Require Import Py PyFacts Text TextFacts Names NamesProps Resolve PatternConf.
From Coq Require Import Arith Lia.

Section Spec.
  Context {O : Type} (import_module : str -> res O) (getattr : O -> str -> res O) (evaluate : str -> res O) (text : str -> O).
  (** following attributes *)
  Inductive follows : O -> list str -> O -> Prop :=
  | follows_nil o : follows o [] o
  | follows_cons o a o1 l o2 : getattr o a = Ok o1 -> follows o1 l o2 -> follows o (a :: l) o2.
  (** a path of names separated by dots *)
  Definition dotted (t : str) (l : list str) : Prop := t = concat_with (lit ".") l /\ l <> [] /\ forall x, In x l -> ~ In 46%N x.
  (** the object a module holds under a path *)
  Definition holds (m t : str) (o : O) : Prop := exists mo l, import_module m = Ok mo /\ dotted t l /\ follows mo l o.
  (** what a text names, [default] being the module of plain names *)
  Inductive denotes (default : option str) : str -> O -> Prop :=
  | from_module m t o : In 46%N (m ++ lit ":" ++ t) -> ~ In 58%N t -> holds m t o -> denotes default (lit "import:" ++ m ++ lit ":" ++ t) o
  | from_default m t o : default = Some m -> ~ In 46%N t -> holds m t o -> denotes default (lit "import:" ++ t) o
  | evaluated t o : evaluate t = Ok o -> denotes default (lit "eval:" ++ t) o
  | function t o : startswith (lit "lambda ") t = true \/ startswith (lit "lambda:") t = true -> evaluate t = Ok o -> denotes default t o
  | itself t : startswith (lit "import:") t = false -> startswith (lit "eval:") t = false -> startswith (lit "lambda ") t = false -> startswith (lit "lambda:") t = false ->
      denotes default t (text t).
  (** the names of modules and attributes have no colon *)
  Definition colon_free : Prop := (forall m o, import_module m = Ok o -> ~ In 58%N m) /\ (forall o a o', getattr o a = Ok o' -> ~ In 58%N a).

  Notation import_ := (import_ import_module getattr).
  Notation resolve_text := (resolve_text import_module getattr evaluate text).
  Notation resolved := (resolved import_module getattr evaluate text).

  Lemma concat_one p : concat_with (lit ".") [p] = p.
  Proof. cbn [concat_with flat_map]. apply app_nil_r. Qed.
  Lemma concat_two p q ps : concat_with (lit ".") (p :: q :: ps) = p ++ 46%N :: concat_with (lit ".") (q :: ps).
  Proof. cbn [concat_with flat_map]. change (lit ".") with [46%N]. rewrite <- app_assoc. reflexivity. Qed.
  Lemma split_dotted t l : split_char 46%N t = l <-> dotted t l.
  Proof.
    unfold dotted. split.
    - intros <-. split; [|split; [apply split_nonempty|]].
      + remember (split_char 46%N t) as l eqn:E. symmetry in E. revert t E. induction l as [|p ps IH]; intros t E; [exfalso; exact (split_nonempty _ _ E)|].
        apply split_inv in E as [_ [[-> ->]|(r & -> & Hr)]]; [symmetry; apply concat_one|]. destruct ps as [|q qs]; [exfalso; exact (split_nonempty _ _ Hr)|].
        rewrite concat_two, <- (IH r Hr). reflexivity.
      + remember (split_char 46%N t) as l eqn:E. symmetry in E. revert t E. induction l as [|p ps IH]; intros t E x Hx; [destruct Hx|].
        apply split_inv in E as [N [[-> ->]|(r & -> & Hr)]]; [destruct Hx as [<-|[]]; exact N|]. destruct Hx as [<-|Hx]; [exact N|]. exact (IH r Hr x Hx).
    - intros (-> & Hne & Hl). induction l as [|p [|q ps] IH]; [contradiction|rewrite concat_one; apply split_no, Hl; left; reflexivity|].
      rewrite concat_two, split_cut by (apply Hl; left; reflexivity). f_equal. apply IH; [discriminate|]. intros x Hx. apply Hl. right. exact Hx.
  Qed.
  Lemma attributes_iff l o o' : attributes getattr o l = Ok o' <-> follows o l o'.
  Proof.
    unfold attributes. revert o. induction l as [|a l IH]; intros o; cbn [foldM].
    - split; [intros X; injection X as <-; constructor|intros H; inversion H; reflexivity].
    - split.
      + destruct (getattr o a) as [o1|] eqn:E; cbn [bind]; [|discriminate]. intros H. econstructor; [exact E|]. apply IH. exact H.
      + intros H. inversion H as [|? ? o1 ? ? E F]; subst. rewrite E. cbn [bind]. apply IH. exact F.
  Qed.
  Definition direct (m t : str) : res O := o <- import_module m; attributes getattr o (split_char 46%N t).
  Lemma direct_iff m t o : direct m t = Ok o <-> holds m t o.
  Proof.
    unfold direct, holds. split.
    - destruct (import_module m) as [mo|] eqn:E; cbn [bind]; [|discriminate]. intros H. apply attributes_iff in H. exists mo, (split_char 46%N t). repeat split; try assumption; apply (proj1 (split_dotted t _) eq_refl).
    - intros (mo & l & E & D & F). rewrite E. cbn [bind]. apply split_dotted in D. rewrite D. apply attributes_iff. exact F.
  Qed.
  Lemma rsplit_some s m t : rsplit_colon s = Some (m, t) <-> s = m ++ 58%N :: t /\ ~ In 58%N t.
  Proof.
    revert m t. induction s as [|c s IH]; intros m t; cbn [rsplit_colon].
    - split; [discriminate|]. intros [E _]. destruct m; discriminate.
    - destruct (rsplit_colon s) as [[a b]|] eqn:E.
      + destruct (proj1 (IH a b) eq_refl) as [Es Hb]. split.
        * intros X. injection X as <- <-. split; [rewrite Es; reflexivity|exact Hb].
        * intros [Ec Ht]. destruct m as [|x m]; [exfalso; injection Ec as -> Ec; subst t; rewrite Es in Ht; apply Ht, in_app_iff; right; left; reflexivity|].
          injection Ec as -> Ec. assert (Some (a, b) = Some (m, t)) by (apply IH; split; assumption). congruence.
      + assert (N : ~ In 58%N s).
        { clear IH. induction s as [|x s IHs]; [intros []|]. cbn [rsplit_colon] in E. destruct (rsplit_colon s) as [[a b]|]; [discriminate|]. destruct (N.eqb_spec x 58); [discriminate|].
          intros [->|H]; [contradiction|]. exact (IHs eq_refl H). }
        destruct (N.eqb_spec c 58) as [->|Hc].
        * split; [intros X; injection X as <- <-; split; [reflexivity|exact N]|]. intros [Ec Ht]. destruct m as [|x m]; [injection Ec as ->; reflexivity|].
          injection Ec as _ Ec. exfalso. apply N. rewrite Ec. apply in_app_iff. right. left. reflexivity.
        * split; [discriminate|]. intros [Ec _]. destruct m as [|x m]; [injection Ec as -> _; contradiction|]. injection Ec as _ Ec. exfalso. apply N. rewrite Ec. apply in_app_iff. right. left. reflexivity.
  Qed.
  Lemma rsplit_none s : rsplit_colon s = None <-> ~ In 58%N s.
  Proof.
    split.
    - intros E I. apply in_split in I as (a & b & ->). revert E. 
      assert (H : exists m t, a ++ 58%N :: b = m ++ 58%N :: t /\ ~ In 58%N t).
      { clear. revert a. induction b as [|x b IH] using rev_ind; intros a; [exists a, []; split; [reflexivity|intros []]|].
        destruct (IH a) as (m & t & E & N). destruct (N.eq_dec x 58) as [->|Hx].
        - exists (a ++ 58%N :: b), []. split; [rewrite <- app_assoc; reflexivity|intros []].
        - exists m, (t ++ [x]). split; [|intros H; apply in_app_iff in H as [H|[H|[]]]; [exact (N H)|congruence]].
          change (a ++ 58%N :: b ++ [x]) with (a ++ (58%N :: b) ++ [x]). rewrite app_assoc, E, <- app_assoc. reflexivity. }
      destruct H as (m & t & -> & N). rewrite (proj2 (rsplit_some _ m t) (conj eq_refl N)). discriminate.
    - intros N. destruct (rsplit_colon s) as [[m t]|] eqn:E; [|reflexivity]. apply rsplit_some in E as [-> _]. exfalso. apply N, in_app_iff. right. left. reflexivity.
  Qed.
  (** a sound cache: every entry is what a direct look-up gives, under a target without colon *)
  Definition sound (c : cache) : Prop := forall id o, In (id, o) c -> exists m t, id = m ++ 58%N :: t /\ ~ In 58%N t /\ direct m t = Ok o.
  Lemma attributes_names : colon_free -> forall t m o, direct m t = Ok o -> ~ In 58%N t /\ ~ In 58%N m.
  Proof.
    intros [Hm Ha] t m o H. apply direct_iff in H as (mo & l & E & (-> & _ & _) & F). split; [|exact (Hm _ _ E)].
    clear E. induction F as [|o a o1 l o2 E F IH]; [intros []|]. destruct l as [|b l]; [rewrite concat_one; exact (Ha _ _ _ E)|].
    rewrite concat_two. intros I. apply in_app_iff in I as [I|[I|I]]; [exact (Ha _ _ _ E I)|discriminate|exact (IH I)].
  Qed.
  Lemma last_colon_inj (m t m' t' : str) : m ++ 58%N :: t = m' ++ 58%N :: t' -> ~ In 58%N t -> ~ In 58%N t' -> m = m' /\ t = t'.
  Proof.
    intros E N N'. assert (A := proj2 (rsplit_some (m ++ 58%N :: t) m t) (conj eq_refl N)). rewrite E in A.
    rewrite (proj2 (rsplit_some (m' ++ 58%N :: t') m' t') (conj eq_refl N')) in A. split; congruence.
  Qed.
  (** a hit of the cache is what a direct look-up gives *)
  Lemma cached_direct c m t o : colon_free -> sound c -> cached c (m ++ 58%N :: t) = Some o -> direct m t = Ok o.
  Proof.
    intros Hc Hs. unfold cached. destruct (find _ c) as [[id o']|] eqn:F; [|discriminate]. cbn [snd]. intros X. injection X as ->.
    apply find_some in F as [F E]. cbn [fst] in E. apply str_eqb_eq in E. subst id. destruct (Hs _ _ F) as (m' & t' & E & N' & D).
    destruct (in_dec N.eq_dec 58%N t) as [I|N].
    - exfalso. destruct (attributes_names Hc _ _ _ D) as [_ Nm]. apply Nm. apply in_split in I as (t1 & t2 & ->).
      (* the last colon of the identifier is in [t], so [m'] contains the first one *)
      destruct (rsplit_colon (t1 ++ 58%N :: t2)) as [[p q]|] eqn:R; [|apply rsplit_none in R; exfalso; apply R, in_app_iff; right; left; reflexivity].
      apply rsplit_some in R as [Er Nq]. rewrite Er in E. replace (m ++ 58%N :: p ++ 58%N :: q) with ((m ++ 58%N :: p) ++ 58%N :: q) in E by (rewrite <- app_assoc; reflexivity).
      apply last_colon_inj in E as [E _]; [|exact Nq|exact N']. rewrite <- E. apply in_app_iff. right. left. reflexivity.
    - apply last_colon_inj in E as [-> ->]; assumption.
  Qed.
  Lemma import_step c value default : colon_free -> sound c -> fst (import_ c value default) = fst (import_ [] value default) /\ sound (snd (import_ c value default)).
  Proof.
    intros Hc Hs. unfold Resolve.import_. destruct (if cmem 46%N value then _ else _) as [[m t]|e]; [|split; [reflexivity|exact Hs]]. cbn zeta.
    fold (direct m t). cbn [cached find]. destruct (cached c (m ++ 58%N :: t)) as [o|] eqn:C.
    - rewrite (cached_direct c m t o Hc Hs C). split; [reflexivity|exact Hs].
    - destruct (direct m t) as [o|e] eqn:D; cbn [fst snd]; [|split; [reflexivity|exact Hs]]. split; [reflexivity|]. intros id o' [E|I]; [|exact (Hs _ _ I)].
      injection E as <- <-. exists m, t. split; [reflexivity|]. split; [exact (proj1 (attributes_names Hc _ _ _ D))|exact D].
  Qed.
  Lemma resolve_step c value default : colon_free -> sound c -> fst (resolve_text c value default) = fst (resolve_text [] value default) /\ sound (snd (resolve_text c value default)).
  Proof.
    intros Hc Hs. unfold Resolve.resolve_text. destruct (startswith (lit "import:") value); [apply import_step; assumption|].
    destruct (startswith (lit "eval:") value); [split; [reflexivity|exact Hs]|]. destruct (_ || _); split; try reflexivity; exact Hs.
  Qed.
  Lemma resolved_sound history : colon_free -> sound (resolved history).
  Proof.
    intros Hc. unfold Resolve.resolved. assert (H : sound []) by (intros id o []). revert H. generalize (@nil (str * O)) as c.
    induction history as [|q h IH]; intros c Hs; cbn [fold_left]; [exact Hs|]. apply IH, resolve_step; assumption.
  Qed.
  (** C95: whatever was resolved before, a text names the same object (or fails with the same exception) as in a fresh process. *)
  Theorem C95_history : colon_free -> forall history value default, fst (resolve_text (resolved history) value default) = fst (resolve_text [] value default).
  Proof. intros Hc history value default. apply resolve_step; [exact Hc|]. apply resolved_sound, Hc. Qed.

  Lemma starts_split p s : startswith p s = true <-> exists r, s = p ++ r.
  Proof.
    revert s. induction p as [|c p IH]; intros s; cbn [startswith]; [split; [exists s; reflexivity|reflexivity]|]. destruct s as [|x s]; [split; [discriminate|intros [r H]; discriminate]|].
    destruct (N.eqb_spec c x) as [->|Hn]; cbn [andb].
    - rewrite IH. split; intros [r H]; exists r; [rewrite H; reflexivity|injection H as ->; reflexivity].
    - split; [discriminate|]. intros [r H]. injection H as H _. congruence.
  Qed.
  Lemma denotes_import default r o : denotes default (lit "import:" ++ r) o <->
    (exists m t, r = m ++ lit ":" ++ t /\ In 46%N r /\ ~ In 58%N t /\ holds m t o) \/ (exists m, default = Some m /\ ~ In 46%N r /\ holds m r o).
  Proof.
    split.
    - intros H. remember (lit "import:" ++ r) as v eqn:E. destruct H as [m t o D N Hh|m t o Em N Hh|t o He|t o Hl He|t Hi He Hl1 Hl2].
      + apply app_inv_head in E. subst r. left. exists m, t. auto.
      + apply app_inv_head in E. subst r. right. exists m. auto.
      + exfalso. discriminate E.
      + exfalso. subst t. destruct Hl; discriminate.
      + exfalso. subst t. discriminate.
    - intros [(m & t & -> & D & N & Hh)|(m & Em & N & Hh)]; [apply from_module; assumption|apply (from_default _ m); assumption].
  Qed.
  Lemma denotes_eval default t o : denotes default (lit "eval:" ++ t) o <-> evaluate t = Ok o.
  Proof.
    split; [|apply evaluated]. intros H. remember (lit "eval:" ++ t) as v eqn:E. destruct H as [m t' o D N Hh|m t' o Em N Hh|t' o He|t' o Hl He|t' Hi He Hl1 Hl2].
    - exfalso. discriminate E.
    - exfalso. discriminate E.
    - apply app_inv_head in E. subst t'. exact He.
    - exfalso. subst t'. destruct Hl; discriminate.
    - exfalso. subst t'. discriminate.
  Qed.
  Lemma denotes_other default t o : startswith (lit "import:") t = false -> startswith (lit "eval:") t = false ->
    denotes default t o <-> if startswith (lit "lambda ") t || startswith (lit "lambda:") t then evaluate t = Ok o else o = text t.
  Proof.
    intros Si Se. split.
    - intros H. destruct H as [m t' o D N Hh|m t' o Em N Hh|t' o He|t' o Hl He|t' _ _ Hl1 Hl2]; try discriminate.
      + apply Bool.orb_true_iff in Hl. rewrite Hl. exact He.
      + rewrite Hl1, Hl2. reflexivity.
    - destruct (_ || _) eqn:L; [apply Bool.orb_true_iff in L; intros H; apply function; assumption|]. apply Bool.orb_false_iff in L as [L1 L2]. intros ->. apply itself; assumption.
  Qed.
  (** C95: what a text names, in a process where anything was resolved before. *)
  Theorem C95_meaning : colon_free -> forall history value default o, fst (resolve_text (resolved history) value default) = Ok o <-> denotes default value o.
  Proof.
    intros Hc history value default o. rewrite (C95_history Hc). unfold Resolve.resolve_text.
    destruct (startswith (lit "import:") value) eqn:Si.
    - apply starts_split in Si as [r ->]. change (skipn 7 (lit "import:" ++ r)) with r. unfold Resolve.import_. cbn [cached find]. rewrite denotes_import.
      destruct (cmem 46%N r) eqn:Dot.
      + apply cmem_iff in Dot. destruct (rsplit_colon r) as [[m t]|] eqn:R.
        * apply rsplit_some in R as [-> N]. fold (direct m t). transitivity (holds m t o).
          { rewrite <- direct_iff. destruct (direct m t); cbn [fst]; tauto. }
          split; [intros H; left; exists m, t; auto|]. intros [(m' & t' & E & _ & N' & Hh)|(m' & _ & K & _)]; [|contradiction].
          change (lit ":" ++ t') with (58%N :: t') in E. apply last_colon_inj in E as [-> ->]; assumption.
        * cbn [fst]. apply rsplit_none in R. split; [discriminate|]. intros [(m' & t' & -> & _)|(m' & _ & K & _)]; [|contradiction].
          exfalso. apply R, in_app_iff. right. left. reflexivity.
      + assert (Nd : ~ In 46%N r) by (rewrite <- cmem_iff; congruence). destruct default as [m|].
        * fold (direct m r). transitivity (holds m r o).
          { rewrite <- direct_iff. destruct (direct m r); cbn [fst]; tauto. }
          split; [intros H; right; exists m; auto|]. intros [(m' & t' & _ & K & _)|(m' & E & _ & Hh)]; [contradiction|]. injection E as <-. exact Hh.
        * cbn [fst]. split; [discriminate|]. intros [(m' & t' & _ & K & _)|(m' & E & _ & Hh)]; [contradiction|discriminate].
    - destruct (startswith (lit "eval:") value) eqn:Se.
      + apply starts_split in Se as [r ->]. change (skipn 5 (lit "eval:" ++ r)) with r. cbn [fst]. rewrite denotes_eval. reflexivity.
      + rewrite denotes_other by assumption. destruct (_ || _); cbn [fst]; [reflexivity|]. split; [congruence|]. intros ->. reflexivity.
  Qed.
  (** C95: limits — a top-level module cannot be named: without a dot the text is a name in the default module, and there is none for conflict solvers. *)
  Theorem C95_top_level : colon_free -> forall history m t default o, ~ In 46%N (m ++ lit ":" ++ t) -> fst (resolve_text (resolved history) (lit "import:" ++ m ++ lit ":" ++ t) default) <> Ok o.
  Proof.
    intros Hc history m t default o N H. apply (C95_meaning Hc), denotes_import in H. destruct H as [(m' & t' & _ & K & _)|(m' & _ & _ & Hh)]; [contradiction|].
    apply direct_iff in Hh. destruct (attributes_names Hc _ _ _ Hh) as [K _]. apply K, in_app_iff. right. left. reflexivity.
  Qed.
  Theorem C95_no_default : forall c t, ~ In 46%N t -> fst (resolve_text c (lit "import:" ++ t) None) = Err TypeError.
  Proof.
    intros c t N. unfold Resolve.resolve_text. change (startswith (lit "import:") (lit "import:" ++ t)) with true. cbn iota. change (skipn 7 (lit "import:" ++ t)) with t. unfold Resolve.import_.
    destruct (cmem 46%N t) eqn:E; [apply cmem_iff in E; contradiction|reflexivity].
  Qed.
  (** a plain name is one of the common validators or formatters; no other option has such names *)
  Theorem C95_plain : colon_free -> forall history option_name t o, ~ In 46%N t ->
    (fst (resolve_text (resolved history) (lit "import:" ++ t) (default_module option_name)) = Ok o <->
     (option_name = lit "validator" /\ holds (lit "guessit.rules.common.validators") t o) \/ (option_name = lit "formatter" /\ holds (lit "guessit.rules.common.formatters") t o)).
  Proof.
    intros Hc history n t o N. rewrite (C95_meaning Hc), denotes_import. unfold default_module. destruct (str_eqb n (lit "validator")) eqn:E1; [|destruct (str_eqb n (lit "formatter")) eqn:E2].
    - apply str_eqb_eq in E1 as ->. split.
      + intros [(m & t' & -> & K & _)|(m & E & _ & H)]; [contradiction|]. injection E as <-. left. auto.
      + intros [[_ H]|[E _]]; [right; eexists; eauto|discriminate E].
    - apply str_eqb_eq in E2 as ->. split.
      + intros [(m & t' & -> & K & _)|(m & E & _ & H)]; [contradiction|]. injection E as <-. right. auto.
      + intros [[E _]|[_ H]]; [discriminate E|right; eexists; eauto].
    - split.
      + intros [(m & t' & -> & K & _)|(m & E & _)]; [contradiction|discriminate].
      + intros [[-> _]|[-> _]]; discriminate.
  Qed.
End Spec.
Print Assumptions C95_plain.
Print Assumptions C95_history.
Print Assumptions C95_meaning.
Print Assumptions C95_top_level.
Print Assumptions C95_no_default.
(** a small interpreter: objects are texts *)
Definition modules (m : str) : res str := if smem m [lit "guessit.rules.common.validators"; lit "my.mod"] then Ok m else Err (OtherError 1).
Definition attrs (o a : str) : res str := if smem a [lit "seps_surround"; lit "K"; lit "f"] then Ok (o ++ lit "/" ++ a) else Err AttributeError.
Example C95_example_free : colon_free modules attrs.
Proof.
  split; [intros m o|intros o m o']; unfold modules, attrs; destruct (smem m _) eqn:E; intros H; try discriminate; apply smem_In in E; cbn [In] in E;
    repeat match goal with K : _ \/ _ |- _ => destruct K end; try contradiction; subst m; vm_compute; intuition discriminate.
Qed.
Definition eval_text (t : str) : res str := Ok (lit "value of " ++ t).
Example C95_example : map (fun q => fst (resolve_text modules attrs eval_text (fun t => t) (resolved modules attrs eval_text (fun t => t) [(lit "import:my.mod:K.f", None); (lit "import:seps_surround", default_module (lit "validator"))]) (fst q) (default_module (snd q))))
    [(lit "import:my.mod:K.f", lit "formatter"); (lit "import:seps_surround", lit "validator"); (lit "lambda m: m", lit "formatter"); (lit "import:my.mod", lit "validator"); (lit "import:f", lit "conflict_solver"); (lit "plain", lit "validator")] =
  [Ok (lit "my.mod/K/f"); Ok (lit "guessit.rules.common.validators/seps_surround"); Ok (lit "value of lambda m: m"); Err ValueError; Err TypeError; Ok (lit "plain")].
Proof. vm_compute. reflexivity. Qed.
(** limit: with colons in names, what was imported before matters *)
Definition odd_modules (m : str) : res str := Ok m.
Theorem C95_colon_refuted : exists (getattr : str -> str -> res str) history value default,
  fst (resolve_text odd_modules getattr eval_text (fun t => t) (resolved odd_modules getattr eval_text (fun t => t) history) value default) <> fst (resolve_text odd_modules getattr eval_text (fun t => t) [] value default).
Proof.
  exists (fun o a => Ok (o ++ lit "/" ++ a)), [(lit "import:d.e:x:y", None)], (lit "import:x:y"), (Some (lit "d.e")). vm_compute. discriminate.
Qed.
Print Assumptions C95_colon_refuted.
