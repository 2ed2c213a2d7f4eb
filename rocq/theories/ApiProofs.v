(** Proofs about [Api.v]. *)
From Verif Require Import Py PyFacts Options OptionsSpec OptionsProofs ToDict Api.

Lemma py_eq_truthy a b : py_eq a b = true -> truthy a = truthy b.
Proof.
  destruct a, b; simpl; intros H; try discriminate; try reflexivity;
    try (match type of H with str_eqb ?x ?y = true => apply str_eqb_eq in H; subst; reflexivity end);
    try (match type of H with Qeq_bool _ _ = true => apply Qeq_bool_iff in H end).
  all: try (match goal with |- ?l = ?r => destruct l eqn:E1, r eqn:E2; try reflexivity; exfalso end).
  all: repeat match goal with b : bool |- _ => destruct b end; try discriminate.
  all: repeat match goal with
    | H : negb _ = true |- _ => apply negb_true_iff in H
    | H : negb _ = false |- _ => apply negb_false_iff in H
    | H : Z.eqb _ _ = true |- _ => apply Z.eqb_eq in H
    | H : Z.eqb _ _ = false |- _ => apply Z.eqb_neq in H
    | H : Qeq_bool _ _ = true |- _ => apply Qeq_bool_iff in H
    | H : Qeq_bool ?x ?y = false |- _ => assert (~ Qeq x y) by (intros Hq; apply Qeq_bool_iff in Hq; congruence); clear H
    end; unfold Qeq in *; simpl in *; try lia.
  - destruct l, l0; simpl in *; discriminate.
  - destruct l, l0; simpl in *; discriminate.
  - destruct d, d0; simpl in *; discriminate.
  - destruct d, d0; simpl in *; discriminate.
Qed.

Lemma list_eq_mapM e l1 : (forall a b, py_eq a b = true -> env_load e a = env_load e b) ->
  forall l2, list_eq l1 l2 = true -> mapM (env_load e) l1 = mapM (env_load e) l2.
Proof.
  intros He; induction l1 as [|x l1 IH]; intros [|y l2] H; simpl in *; try discriminate; [reflexivity|].
  apply andb_true_iff in H; destruct H as [H1 H2]. rewrite (He x y H1), (IH l2 H2); reflexivity.
Qed.

Section Proofs.
  Variable R C : Type.
  Variable e : env.
  Variable argparse_str : str -> res dict.
  Variable argparse_list : val -> res dict.
  Variable builder : dict -> res (R * C).
  Variable conv_on_failure : dict -> C -> C.
  Variable matcher : R -> C -> str -> dict -> res (list (key * val)).
  Variable lister : R -> C -> dict -> res dict.

  Notation api := (api R).
  Notation init := (@init R).
  Notation configure := (configure R C e builder conv_on_failure).
  Notation sanitize := (sanitize argparse_str argparse_list).
  Notation load_sanitized := (load_sanitized e).
  Notation step := (step R C e argparse_str argparse_list builder conv_on_failure matcher lister).
  Notation run := (run R C e argparse_str argparse_list builder conv_on_failure matcher lister).
  Notation op := (op R C).

  Hypothesis Hload : forall a b, py_eq a b = true -> env_load e a = env_load e b.
  Hypothesis Hbuild : forall a b, py_eq (VDict a) (VDict b) = true -> builder a = builder b.

  Lemma same_load o o' : has_same_properties o o' load_keys = true -> load_sanitized o = load_sanitized o'.
  Proof.
    unfold has_same_properties, load_keys; cbn [forallb]; rewrite !andb_true_iff.
    intros (Hc & Hu & Hd & _). unfold Api.load_sanitized.
    assert (E : load_config e o = load_config e o'); [|rewrite E; reflexivity].
    assert (Ht : forall k, py_eq (oget (dget o k)) (oget (dget o' k)) = true -> otruthy (dget o k) = otruthy (dget o' k)).
    { intros k H; apply py_eq_truthy in H. destruct (dget o k), (dget o' k); simpl in *; auto. }
    unfold load_config. rewrite (Ht _ Hd).
    assert (Eu : user_config_files e o = user_config_files e o') by (unfold user_config_files; rewrite (Ht _ Hu); reflexivity).
    assert (Ef : (files <- all_config_files e o; load_files e files) = (files <- all_config_files e o'; load_files e files)).
    { unfold all_config_files; rewrite Eu. specialize (Ht _ Hc).
      destruct (dget o k_config) as [c|], (dget o' k_config) as [c'|]; cbn [otruthy oget] in Hc, Ht; try reflexivity;
        try (rewrite Ht; reflexivity); try (rewrite <- Ht; reflexivity).
      rewrite Ht. destruct (truthy c') eqn:Etc; [|reflexivity].
      destruct c, c'; try (simpl in Hc; discriminate); try reflexivity. cbn [bind].
      unfold load_files. f_equal.
      assert (El : list_eq l l0 = true) by (rewrite <- py_eq_list; exact Hc).
      pose proof (list_eq_mapM e l Hload l0 El) as Em.
      clear -Em. induction (user_config_files e o') as [|u us IH]; simpl; [exact Em|].
      rewrite IH; reflexivity. }
    destruct (all_config_files e o) as [f|], (all_config_files e o') as [f'|]; cbn [bind] in *;
      [rewrite Ef|rewrite Ef|rewrite <- Ef|injection Ef as ->]; reflexivity.
  Qed.

  (** the effective advanced configuration of a call *)
  Definition effective_adv (config o : dict) : res dict :=
    merge_options [oget (dget config k_advanced_config); oget (dget o k_advanced_config)].

  (** A state reached without failed reconfiguration *)
  Definition Good (c : C) (s : api) : Prop :=
    s = init \/
    exists config lco adv r,
      s = mk_api R (Some r) (Some config) (Some lco) (Some adv) /\
      load_sanitized lco = Ok config /\ builder adv = Ok (r, c).

  Lemma configure_good c s o force :
    Good c s ->
    exists c' s' r calls, configure c s o None force = (c', s', r, calls) /\
    match load_sanitized o with
    | Err x => c' = c /\ s' = s /\ r = Err x
    | Ok config =>
        match effective_adv config o with
        | Err x => r = Err x
        | Ok adv =>
            match builder adv with
            | Err x => r = Err x
            | Ok (rb, cb) => r = Ok config /\ a_rebulk R s' = Some rb /\ c' = cb /\ Good c' s'
            end
        end
    end.
  Proof.
    intros Hg.
    destruct (configure c s o None force) as [[[c' s'] r] calls] eqn:Ec.
    exists c', s', r, calls; split; [reflexivity|].
    unfold Api.configure in Ec.
    destruct Hg as [->|(config0 & lco & adv0 & rb0 & -> & Hl & Hb)]; cbn [a_config a_lco a_rebulk a_adv Api.init] in Ec.
    - destruct (load_sanitized o) as [config|x] eqn:El.
      2:{ injection Ec as <- <- <- <-; auto. }
      unfold effective_adv. destruct (merge_options _) as [adv|x] eqn:Em.
      2:{ injection Ec as <- <- <- <-; reflexivity. }
      rewrite orb_true_r in Ec; cbn [orb] in Ec.
      destruct (builder adv) as [[rb cb]|x] eqn:Eb; injection Ec as <- <- <- <-; [|reflexivity].
      repeat split. right; exists config, o, adv, rb; auto.
    - set (s0 := mk_api R (Some rb0) (Some config0) (Some lco) (Some adv0)) in *.
      destruct (force || negb (has_same_properties lco o load_keys)) eqn:Er.
      + destruct (load_sanitized o) as [config|x] eqn:El.
        2:{ injection Ec as <- <- <- <-; auto. }
        unfold effective_adv; cbn [a_rebulk a_adv a_config a_lco] in Ec.
        destruct (merge_options _) as [adv|x] eqn:Em.
        2:{ injection Ec as <- <- <- <-; reflexivity. }
        match type of Ec with (if ?b then _ else _) = _ => destruct b eqn:Esb end.
        * destruct (builder adv) as [[rb cb]|x] eqn:Eb; injection Ec as <- <- <- <-; [|reflexivity].
          repeat split. right; exists config, o, adv, rb; auto.
        * rewrite !orb_false_iff, negb_false_iff in Esb. destruct Esb as [_ Heq].
          rewrite <- (Hbuild _ _ Heq), Hb. injection Ec as <- <- <- <-.
          repeat split. right; exists config, o, adv0, rb0; auto.
      + apply orb_false_iff in Er; destruct Er as [Hf Hs]. apply negb_false_iff in Hs.
        rewrite <- (same_load lco o Hs), Hl.
        unfold effective_adv; cbn [a_rebulk a_adv a_config a_lco s0] in Ec.
        destruct (merge_options _) as [adv|x] eqn:Em.
        2:{ injection Ec as <- <- <- <-; reflexivity. }
        match type of Ec with (if ?b then _ else _) = _ => destruct b eqn:Esb end.
        * destruct (builder adv) as [[rb cb]|x] eqn:Eb; injection Ec as <- <- <- <-; [|reflexivity].
          repeat split. right; exists config0, lco, adv, rb; auto.
        * rewrite !orb_false_iff, negb_false_iff in Esb. destruct Esb as [_ Heq].
          rewrite <- (Hbuild _ _ Heq), Hb. injection Ec as <- <- <- <-.
          repeat split. right; exists config0, lco, adv0, rb0; auto.
  Qed.

  (** what a call asks, independently of any state *)
  Definition op_options (x : op) : option val :=
    match x with Guess _ _ _ o | Properties _ _ o | Configure _ _ o _ _ => Some o | Reset _ _ => None end.
  (** no custom rules builder *)
  Definition default_builder (x : op) : Prop :=
    match x with Configure _ _ _ (Some _) _ => False | _ => True end.
  (** the call does not fail once its configuration is loaded *)
  Definition builds (x : op) : Prop :=
    match op_options x with
    | None => True
    | Some o => forall d config, sanitize o = Ok d -> load_sanitized d = Ok config ->
                exists adv rc, effective_adv config d = Ok adv /\ builder adv = Ok rc
    end.

  Lemma step_good c s x :
    Good c s -> default_builder x -> builds x ->
    Good (fst (fst (step (c, s) x))) (snd (fst (step (c, s) x))).
  Proof.
    intros Hg Hd Hb.
    assert (Hconf : forall o d force, op_options x = Some o -> sanitize o = Ok d ->
       forall c' s' r calls, configure c s d None force = (c', s', r, calls) -> Good c' s').
    { intros o d force Hx Hs c' s' r calls Hc.
      destruct (configure_good c s d force Hg) as (c1 & s1 & r1 & k1 & E1 & H1).
      rewrite Hc in E1; injection E1 as <- <- <- <-.
      unfold builds in Hb; rewrite Hx in Hb.
      destruct (load_sanitized d) as [config|xx] eqn:El.
      - destruct (Hb d config Hs El) as (adv & [rb cb] & Ha & Hbd). rewrite Ha, Hbd in H1; tauto.
      - destruct H1 as (-> & -> & _); exact Hg. }
    destruct x as [i o|o|o b f|]; cbn [Api.step].
    - unfold guessit. destruct (sanitize o) as [d|xx] eqn:Es; [|exact Hg].
      destruct (configure c s d None false) as [[[c' s'] [config|xx]] calls] eqn:Ec;
        pose proof (Hconf o d false eq_refl Es _ _ _ _ Ec) as Hg'.
      + destruct (merge_options [VDict config; VDict d]) as [m|]; [|exact Hg'].
        destruct (guess_core _ _ _ _ _ _ _); exact Hg'.
      + exact Hg'.
    - unfold properties. destruct (sanitize o) as [d|xx] eqn:Es; [|exact Hg].
      destruct (configure c s d None false) as [[[c' s'] [config|xx]] calls] eqn:Ec;
        pose proof (Hconf o d false eq_refl Es _ _ _ _ Ec) as Hg'.
      + destruct (merge_options [VDict config; VDict d]) as [m|]; [|exact Hg'].
        destruct (a_rebulk R s'); [|exact Hg']. destruct (lister _ _ _); exact Hg'.
      + exact Hg'.
    - unfold configure_call. destruct b as [b|]; [destruct Hd|].
      destruct (sanitize o) as [d|xx] eqn:Es; [|exact Hg].
      destruct (configure c s d None f) as [[[c' s'] [config|xx]] calls] eqn:Ec;
        exact (Hconf o d f eq_refl Es _ _ _ _ Ec).
    - left; reflexivity.
  Qed.

  Lemma run_good ops : forall w,
    Good (fst w) (snd w) -> Forall default_builder ops -> Forall builds ops ->
    Good (fst (run w ops)) (snd (run w ops)).
  Proof.
    unfold Api.run; induction ops as [|x ops IH]; intros w Hg Hd Hb; [exact Hg|].
    cbn [fold_left]. inversion Hd; inversion Hb; subst.
    apply IH; auto. destruct w as [c s]; apply step_good; auto.
  Qed.

  (** the outcome of a call in a good state does not depend on that state *)
  Lemma outcome_good x c s c1 s1 :
    Good c s -> Good c1 s1 -> default_builder x -> snd (step (c, s) x) = snd (step (c1, s1) x).
  Proof.
    intros Hg Hg1 Hd.
    assert (Hconf : forall d force, exists r, forall c s, Good c s ->
       exists c' s' calls, configure c s d None force = (c', s', r, calls) /\
         match r with
         | Ok _ => exists config adv rb, load_sanitized d = Ok config /\ effective_adv config d = Ok adv /\
                     builder adv = Ok (rb, c') /\ a_rebulk R s' = Some rb
         | Err _ => True
         end).
    { intros d force.
      exists (match load_sanitized d with
              | Err x => Err x
              | Ok config => match effective_adv config d with
                             | Err x => Err x
                             | Ok adv => match builder adv with Err x => Err x | Ok _ => Ok config end
                             end
              end).
      intros c0 s0 Hg0; destruct (configure_good c0 s0 d force Hg0) as (c' & s' & r & calls & Ec & H).
      exists c', s', calls. destruct (load_sanitized d) as [config|xx] eqn:El.
      - destruct (effective_adv config d) as [adv|xx] eqn:Ea; [|subst r; split; [exact Ec|exact I]].
        destruct (builder adv) as [[rb cb]|xx] eqn:Eb; [|subst r; split; [exact Ec|exact I]].
        destruct H as (-> & Hr & -> & _); split; [exact Ec|].
        exists config, adv, rb; auto.
      - destruct H as (-> & -> & ->); split; [exact Ec|exact I]. }
    destruct x as [i o|o|o b f|]; cbn [Api.step].
    - unfold guessit. destruct (sanitize o) as [d|xx] eqn:Es; [|reflexivity].
      destruct (Hconf d false) as (r & Hr).
      destruct (Hr c s Hg) as (c' & s' & calls & Ec & H); destruct (Hr c1 s1 Hg1) as (c1' & s1' & calls1 & Ec1 & H1).
      rewrite Ec, Ec1. destruct r as [config|xx]; [|reflexivity].
      destruct H as (cf & adv & rb & Hl & Ha & Hb & Hrb). destruct H1 as (cf1 & adv1 & rb1 & Hl1 & Ha1 & Hb1 & Hrb1).
      assert (cf1 = cf) by congruence; subst cf1. assert (adv1 = adv) by congruence; subst adv1.
      rewrite Hb in Hb1; injection Hb1 as <- <-. rewrite Hrb, Hrb1.
      destruct (merge_options [VDict config; VDict d]) as [m|]; [|reflexivity].
      destruct (guess_core _ _ _ _ _ _ _); reflexivity.
    - unfold properties. destruct (sanitize o) as [d|xx] eqn:Es; [|reflexivity].
      destruct (Hconf d false) as (r & Hr).
      destruct (Hr c s Hg) as (c' & s' & calls & Ec & H); destruct (Hr c1 s1 Hg1) as (c1' & s1' & calls1 & Ec1 & H1).
      rewrite Ec, Ec1. destruct r as [config|xx]; [|reflexivity].
      destruct H as (cf & adv & rb & Hl & Ha & Hb & Hrb). destruct H1 as (cf1 & adv1 & rb1 & Hl1 & Ha1 & Hb1 & Hrb1).
      assert (cf1 = cf) by congruence; subst cf1. assert (adv1 = adv) by congruence; subst adv1.
      rewrite Hb in Hb1; injection Hb1 as <- <-. rewrite Hrb, Hrb1.
      destruct (merge_options [VDict config; VDict d]) as [m|]; [|reflexivity].
      destruct (lister _ _ _); reflexivity.
    - unfold configure_call. destruct b as [b|]; [destruct Hd|].
      destruct (sanitize o) as [d|xx] eqn:Es; [|reflexivity].
      destruct (Hconf d f) as (r & Hr).
      destruct (Hr c s Hg) as (c' & s' & calls & Ec & H); destruct (Hr c1 s1 Hg1) as (c1' & s1' & calls1 & Ec1 & H1).
      rewrite Ec, Ec1. destruct r; reflexivity.
    - reflexivity.
  Qed.

  Theorem history_independence ops x c0 c1 :
    Forall default_builder ops -> Forall builds ops -> default_builder x ->
    snd (step (run (c0, init) ops) x) = snd (step (c1, init) x).
  Proof.
    intros Hd Hb Hx.
    pose proof (run_good ops (c0, init) (or_introl eq_refl) Hd Hb) as Hg.
    destruct (run (c0, init) ops) as [c s]. apply outcome_good; [exact Hg|left; reflexivity|exact Hx].
  Qed.

  (** C10: failures before the configuration is loaded leave everything unchanged *)
  Theorem load_failure_unchanged c s x o d xx :
    op_options x = Some o -> sanitize o = Ok d -> load_sanitized d = Err xx ->
    (match x with Configure _ _ _ _ true => True | _ =>
       match a_config R s, a_lco R s with
       | Some _, Some lco => has_same_properties lco d load_keys = false
       | _, _ => True
       end end) ->
    fst (step (c, s) x) = (c, s).
  Proof.
    intros Hx Hs Hl Hre.
    assert (Hc : forall b force, (force = true \/ match a_config R s, a_lco R s with
       | Some _, Some lco => has_same_properties lco d load_keys = false
       | _, _ => True end) -> configure c s d b force = (c, s, Err xx, None)).
    { intros b force Hf; unfold Api.configure. rewrite Hl.
      destruct (a_config R s) as [cf|]; [|reflexivity]. destruct (a_lco R s) as [lco|]; [|reflexivity].
      destruct Hf as [->|Hf]; [reflexivity|]. rewrite Hf; cbn [negb]; rewrite orb_true_r; reflexivity. }
    destruct x as [i o'|o'|o' b f|]; cbn in Hx; try discriminate; injection Hx as ->; cbn [Api.step].
    - unfold guessit. rewrite Hs, Hc by (right; exact Hre); reflexivity.
    - unfold properties. rewrite Hs, Hc by (right; exact Hre); reflexivity.
    - unfold configure_call. rewrite Hs, Hc; [reflexivity|]. destruct f; [left; reflexivity|right; exact Hre].
  Qed.

  (** C11 *)
  Theorem rebuild_iff c s d b force config adv :
    let '(c', s', r, calls) := configure c s d b force in
    (* the configuration used by this call *)
    (if match a_config R s, a_lco R s with
        | Some _, Some lco => force || negb (has_same_properties lco d load_keys)
        | _, _ => true end
     then load_sanitized d = Ok config else a_config R s = Some config) ->
    effective_adv config d = Ok adv ->
    (calls <> None <->
       force = true \/ a_rebulk R s = None \/ a_adv R s = None \/ a_adv R s = Some [] \/
       exists a, a_adv R s = Some a /\ py_eq (VDict a) (VDict adv) = false) /\
    (calls <> None -> calls = Some adv) /\
    (calls = None -> a_rebulk R s' = a_rebulk R s /\ a_adv R s' = a_adv R s /\ c' = c).
  Proof.
    destruct (configure c s d b force) as [[[c' s'] r] calls] eqn:Ec.
    intros Hcfg Hadv. unfold Api.configure in Ec.
    match type of Hcfg with (if ?re then _ else _) => set (reload := re) in * end.
    assert (Hl : exists s1, a_rebulk R s1 = a_rebulk R s /\ a_adv R s1 = a_adv R s /\
      (if reload then match load_sanitized d with
          | Ok config => (mk_api R (a_rebulk R s) (a_config R s) (Some d) (a_adv R s), Ok config)
          | Err x => (s, Err x) end
       else (s, Ok (match a_config R s with Some config => config | None => [] end))) = (s1, Ok config)).
    { destruct reload; [rewrite Hcfg; eexists; split; [|split; [|reflexivity]]; reflexivity|].
      rewrite Hcfg; exists s; auto. }
    destruct Hl as (s1 & Hrb & Hav & Hl).
    replace (match a_config R s with
             | Some _ => match a_lco R s with
                         | Some lco => force || negb (has_same_properties lco d load_keys)
                         | None => true end
             | None => true end) with reload in Ec by reflexivity.
    rewrite Hl in Ec. unfold effective_adv in Hadv. rewrite Hadv in Ec.
    rewrite Hrb, Hav in Ec.
    match type of Ec with (if ?b then _ else _) = _ => destruct b eqn:Esb end.
    - assert (Hcalls : calls = Some adv).
      { destruct (match b with Some f => f | None => builder end adv) as [[rb cb]|x]; injection Ec as <- <- <- <-; reflexivity. }
      subst calls. split; [|split; [reflexivity|discriminate]].
      split; [intros _|intros _; discriminate].
      rewrite !orb_true_iff in Esb. destruct Esb as [[[Hf|Hr]|Ha]|Ha].
      + left; exact Hf.
      + destruct (a_rebulk R s); [discriminate|right; left; reflexivity].
      + destruct (a_adv R s) as [[|? ?]|]; try discriminate; auto.
      + destruct (a_adv R s) as [a|]; [|auto]. right; right; right; right; exists a; split; [reflexivity|].
        apply negb_true_iff; exact Ha.
    - rewrite !orb_false_iff in Esb. destruct Esb as [[[Hf Hr] Ha] Hq].
      injection Ec as <- <- <- <-. cbn [a_rebulk a_adv].
      split; [|split; [congruence|auto]].
      split; [congruence|]. intros [H|[H|[H|[H|(a & H1 & H2)]]]]; exfalso.
      + congruence.
      + rewrite H in Hr; discriminate.
      + rewrite H in Ha; discriminate.
      + rewrite H in Ha; discriminate.
      + rewrite H1 in Hq. rewrite H2 in Hq; discriminate.
  Qed.
End Proofs.

(** ** Bytes in, bytes out *)
From Verif Require Import ToDictProofs.
Section Bytes.
  Variable R C : Type.
  Variable e : env.
  Variable argparse_str : str -> res dict.
  Variable argparse_list : val -> res dict.
  Variable builder : dict -> res (R * C).
  Variable conv_on_failure : dict -> C -> C.
  Variable matcher : R -> C -> str -> dict -> res (list (key * val)).
  Notation guessit := (guessit R C e argparse_str argparse_list builder conv_on_failure matcher).

  Definition ascii_str (s : str) : Prop := Forall (fun c => (c < 128)%N) s.
  Lemma decode_ascii_id s : ascii_str s -> decode_ascii s = Ok s.
  Proof.
    intros H; apply decode_ascii_ok in H; destruct H as (s' & H).
    pose proof (decode_ascii_inv _ _ H); congruence.
  Qed.
  Definition ascii_val (v : val) : Prop := match v with VStr s => ascii_str s | _ => True end.
  Lemma encode_matches_ok ms :
    Forall (fun m => ascii_val (snd m)) ms -> encode_matches ms = Ok (map (fun m => (fst m, enc1 (snd m))) ms).
  Proof.
    unfold encode_matches; induction 1 as [|[k v] ms Hv Hms IH]; [reflexivity|]. cbn [mapM map fst snd] in *.
    assert (E : encode_value v = Ok (enc1 v)).
    { destruct v; try reflexivity. simpl. rewrite decode_ascii_id by exact Hv; reflexivity. }
    rewrite E; cbn [bind]. rewrite IH; reflexivity.
  Qed.

  (** the matches a call computes *)
  Lemma bytes_like_str c s b o d :
    ascii_str b ->
    (forall r cc opts ms, matcher r cc b opts = Ok ms ->
        Forall (fun m => textual (snd m) /\ ascii_val (snd m)) ms) ->
    snd (guessit c s (IStr b) o) = Returns dict d ->
    fst (guessit c s (IBytes b) o) = fst (guessit c s (IStr b) o) /\
    (snd (guessit c s (IBytes b) o) = Returns dict (enc_dict d) \/
     exists d0, d = dset d0 k_input_string (VStr b) /\
       snd (guessit c s (IBytes b) o) = Returns dict (dset (enc_dict d0) k_input_string (VStr b))).
  Proof.
    intros Hb Hm. unfold Api.guessit; cbn [input_after_path].
    destruct (sanitize argparse_str argparse_list o) as [od|x].
    2:{ unfold wrap; destruct x; discriminate. }
    destruct (configure R C e builder conv_on_failure c s od None false) as [[[c' s'] [config|x]] calls].
    2:{ cbn [fst snd]; unfold wrap; destruct x; discriminate. }
    destruct (merge_options [VDict config; VDict od]) as [merged|x].
    2:{ cbn [fst snd]; unfold wrap; destruct x; discriminate. }
    unfold guess_core. destruct (a_rebulk R s') as [r|].
    2:{ cbn [fst snd]; unfold wrap; discriminate. }
    rewrite (decode_ascii_id b Hb); cbn [bind].
    destruct (matcher r c' b merged) as [ms|x] eqn:Em.
    2:{ cbn [fst snd bind]; unfold wrap; destruct x; discriminate. }
    specialize (Hm _ _ _ _ Em). cbn [bind].
    rewrite encode_matches_ok by (eapply Forall_impl; [|exact Hm]; intros m [_ H]; exact H).
    cbn [bind fst snd]. intros H; injection H as <-; split; [reflexivity|].
    unfold result_dict. rewrite to_dict_enc by (eapply Forall_impl; [|exact Hm]; intros m [H _]; exact H).
    destruct (otruthy (dget merged k_output_input_string)).
    - right; eexists; split; reflexivity.
    - left; reflexivity.
  Qed.

  Lemma never_raises c s i o x :
    snd (guessit c s i o) = Raises dict x -> x = SystemExit.
  Proof.
    assert (Hw : forall j v y, wrap (A := dict) j v y = Raises dict x -> x = SystemExit).
    { intros j v y; unfold wrap; destruct y; intros H; congruence. }
    unfold Api.guessit. destruct (sanitize _ _ o) as [od|y]; [|cbn [snd]; apply Hw].
    destruct (configure _ _ _ _ _ c s od None false) as [[[c' s'] [config|y]] calls]; [|cbn [snd]; apply Hw].
    destruct (merge_options _) as [merged|y]; [|cbn [snd]; apply Hw].
    destruct (guess_core _ _ _ _ _ _ _) as [d|y]; [discriminate|cbn [snd]; apply Hw].
  Qed.

  Definition same_text (i j : input) : Prop :=
    match i, j with
    | (IStr s | IPath s | IBytes s), (IStr s' | IPath s' | IBytes s') => s = s'
    end.
  Lemma exception_input c s i o j v x :
    snd (guessit c s i o) = GuessitException dict j v x -> same_text i j /\ x <> SystemExit.
  Proof.
    assert (Hw : forall j0 v0 y, same_text i j0 -> wrap (A := dict) j0 v0 y = GuessitException dict j v x -> same_text i j /\ x <> SystemExit).
    { intros j0 v0 y Hs; unfold wrap; destruct y; intros H; try discriminate; injection H as <- <- <-; split; auto; discriminate. }
    assert (Hi : same_text i (input_after_path i)) by (destruct i; reflexivity).
    unfold Api.guessit. destruct (sanitize _ _ o) as [od|y]; [|cbn [snd]; apply Hw; exact Hi].
    destruct (configure _ _ _ _ _ c s od None false) as [[[c' s'] [config|y]] calls]; [|cbn [snd]; apply Hw; exact Hi].
    destruct (merge_options _) as [merged|y]; [|cbn [snd]; apply Hw; exact Hi].
    destruct (guess_core _ _ _ _ _ _ _) as [d|y]; [discriminate|cbn [snd]; apply Hw].
    destruct i; simpl; try reflexivity. destruct (is_ok _); reflexivity.
  Qed.
  Lemma non_ascii_fails c s b o d :
    ~ ascii_str b -> snd (guessit c s (IBytes b) o) <> Returns dict d.
  Proof.
    intros Hb H.
    assert (Hd : decode_ascii b = Err UnicodeError).
    { destruct (decode_ascii b) as [s'|x] eqn:E.
      - exfalso; apply Hb, decode_ascii_ok; eauto.
      - unfold decode_ascii in E; destruct (forallb _ b); congruence. }
    revert H; unfold Api.guessit; cbn [input_after_path].
    destruct (sanitize _ _ o) as [od|y]; [|cbn [snd]; unfold wrap; destruct y; discriminate].
    destruct (configure _ _ _ _ _ c s od None false) as [[[c' s'] [config|y]] calls]; [|cbn [snd]; unfold wrap; destruct y; discriminate].
    destruct (merge_options _) as [merged|y]; [|cbn [snd]; unfold wrap; destruct y; discriminate].
    unfold guess_core; destruct (a_rebulk R s'); [|cbn [snd]; unfold wrap; discriminate].
    rewrite Hd; cbn [bind snd]; unfold wrap; discriminate.
  Qed.
End Bytes.

(** ** suggested_expected *)
Section Suggested.
  Variable R C : Type.
  Variable e : env.
  Variable argparse_str : str -> res dict.
  Variable argparse_list : val -> res dict.
  Variable builder : dict -> res (R * C).
  Variable conv_on_failure : dict -> C -> C.
  Variable matcher : R -> C -> str -> dict -> res (list (key * val)).
  Variable lister : R -> C -> dict -> res dict.
  Hypothesis Hload : forall a b, py_eq a b = true -> env_load e a = env_load e b.
  Hypothesis Hbuild : forall a b, py_eq (VDict a) (VDict b) = true -> builder a = builder b.
  Notation guessit := (guessit R C e argparse_str argparse_list builder conv_on_failure matcher).
  Notation suggested_expected := (suggested_expected R C e argparse_str argparse_list builder conv_on_failure matcher).
  Notation Good := (Good R C e builder).

  Lemma guessit_step c s i o :
    step R C e argparse_str argparse_list builder conv_on_failure matcher lister (c, s) (Guess R C i o)
    = (fst (guessit c s i o), snd (guessit c s i o)).
  Proof. cbn [step]. destruct (guessit c s i o) as [[c' s'] r]; reflexivity. Qed.

  Lemma suggested_filter c0 o (g : str -> dict) :
    builds R C e argparse_str argparse_list builder (Guess R C (IStr []) o) ->
    forall titles c s, Good c s ->
    (forall t, In t titles -> snd (guessit c0 (init R) (IStr t) o) = Returns dict (g t)) ->
    snd (suggested_expected c s titles o) =
    Returns (list str) (filter (fun t => negb (Nat.eqb (List.length (g t)) 2 && dmem (g t) (KS (lit "title")))) titles).
  Proof.
    intros Hb titles; induction titles as [|t titles IH]; intros c s Hg Ht; [reflexivity|].
    cbn [Api.suggested_expected filter].
    pose proof (outcome_good R C e argparse_str argparse_list builder conv_on_failure matcher lister Hload Hbuild
                  (Guess R C (IStr t) o) c s c0 (init R) Hg (or_introl eq_refl) I) as Ho.
    pose proof (step_good R C e argparse_str argparse_list builder conv_on_failure matcher lister Hload Hbuild
                  c s (Guess R C (IStr t) o) Hg I Hb) as Hg'.
    rewrite !guessit_step in Ho; rewrite guessit_step in Hg'; cbn [fst snd] in *.
    rewrite (Ht t (or_introl eq_refl)) in Ho.
    destruct (guessit c s (IStr t) o) as [[c' s'] r]; cbn [fst snd] in *. subst r.
    specialize (IH c' s' Hg' (fun t' H => Ht t' (or_intror H))).
    destruct (suggested_expected c' s' titles o) as [[c'' s''] r']; cbn [snd] in *. subst r'.
    rewrite negb_andb. fold k_title. destruct (negb _ || negb _); reflexivity.
  Qed.
End Suggested.
