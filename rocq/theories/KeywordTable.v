(** C90 for the configuration guessit comes with: every keyword of options.json and of the builders is read, and
    none hides another, except those listed here. *)
From Verif Require Import Py PyFacts Text WordsProofs Regex CrcProofs DateProofs RegexFacts Episodes Rebulk Patterns PatternsProps PatternConf Keyword KeywordProofs KeywordProps DefaultConfig.
From Coq Require Import Arith.
Local Open Scope nat_scope.

(** all that is registered for keywords *)
Definition default_keywords : list (builder * list event) := [
  (audio_codec_builder, registered audio_codec_config);
  (audio_profile_builder, registered audio_profile_config);
  (audio_channels_builder, registered audio_channels_config);
  (streaming_service_builder, registered streaming_service_config);
  (other_builder, registered other_config);
  (edition_builder, registered edition_config);
  (video_codec_builder, video_codec_events);
  (video_profile_builder, video_profile_events);
  (color_depth_builder, color_depth_events);
  (source_builder, source_events)
].
(** what the model does not read: repetitions without a bound, the value of two editions at once *)
Definition not_read : list str := map lit [
  "LAME(?:\d)+-?(?:\d)+"; "Repack(?P<proper_count>\d*)"; "Rerip(?P<proper_count>\d*)";
  "ultimate-collector'?s?-edition"; "ultimate-fan-edit(?:ion)?"; "ultimate-fan-collection"]%string.
(** what is read, but may be hidden by a longer text of the same keyword: "Ultra" before ".HD", "VHS" before ".Rip",
    or by one that starts before: "remaster" in "4k.remaster" *)
Definition may_be_hidden : list str := map lit [
  "(?:Proof-?)?Sample-?Fix"; "Ultra-?(?:HD)?";
  "(?:Live-)?(?:Episode-)?East-?(?:Coast-)?Feed"; "(?:Live-)?(?:Episode-)?West-?(?:Coast-)?Feed";
  "alternat(e|ive)(?:-?Cut)?"; "(?:4k.)?remaster(?:ed)?"; "(?:4k.)?restore(?:d)?";
  "(TV-?(?=Dub))"; "((?P<another>BR)-?(?=Scr(?:eener)?))"; "((?P<another>BR)-?(?=Mux))"]%string
  ++ map (fun p => lit ("(" ++ p ++ ")(?:-?(?P<other>Rip))?")%string) [
  "VHS"; "CAM"; "HD-?CAM"; "TELESYNC"; "TS"; "HD-?TELESYNC"; "HD-?TS"; "TELECINE"; "TC"; "HD-?TELECINE"; "HD-?TC"; "PPV"; "SD-?TV"; "DVB"; "PD-?TV";
  "DVD"; "DM"; "HD-?TV"; "VOD"; "WEB-?(?P<another>Cap)"; "HD-?DVD"; "Blu-?ray"; "BD"; "BD[59]"; "BD25"; "BD50"; "UHD-?TV"; "DSR"; "DTH"]%string.

(** ** the check *)
Definition whole_b (B : builder) (opts : dict) : bool :=
  negb (b_children B) && negb (b_validate_all B) && negb (dmem opts (KS (lit "children"))) && negb (dmem opts (KS (lit "name"))) && negb (dmem opts (KS (lit "validate_all"))).
Definition gives_b (opts : dict) (name : str) : bool :=
  match dget opts (KS (lit "value")) with
  | Some (VStr _) => true
  | Some (VDict d) => match dget d (KS name) with Some (VStr _) => true | _ => false end
  | _ => false
  end.
Definition checked (B : builder) (ty : str) (opts : dict) (p : val) : bool :=
  match p with
  | VStr t =>
      if smem t not_read then true else
      match kw_of B ty p opts with
      | Some K => (if smem t may_be_hidden then solid (kw_kre K) && greedy (kw_kre K) else kre_ok (kw_kre K)) && (negb (whole_b B opts) || gives_b opts (b_name B))
      | None => false
      end
  | _ => false
  end.
Definition all_checked : bool :=
  forallb (fun be => forallb (fun e => match e with EReg ty ps opts => forallb (checked (fst be) ty opts) ps | ECall _ _ => true end) (snd be)) default_keywords.
Lemma all_checked_true : all_checked = true.
Proof. vm_compute. reflexivity. Qed.
Lemma kre_ok_solid k : kre_ok k = true -> solid k = true.
Proof. intros H. apply kre_ok_parts in H. tauto. Qed.
Lemma default_checked B evs ty ps opts t : In (B, evs) default_keywords -> In (EReg ty ps opts) evs -> In (VStr t) ps -> ~ In t not_read ->
  exists K, kw_of B ty (VStr t) opts = Some K /\ solid (kw_kre K) = true /\ (kre_ok (kw_kre K) = true \/ (greedy (kw_kre K) = true /\ In t may_be_hidden)) /\ (whole B opts -> exists v, gives opts (b_name B) v).
Proof.
  intros H1 H2 H3 H4. pose proof all_checked_true as C. unfold all_checked in C. rewrite forallb_forall in C. specialize (C (B, evs) H1). cbn [fst snd] in C. rewrite forallb_forall in C. specialize (C _ H2). cbv beta iota in C.
  rewrite forallb_forall in C. specialize (C _ H3). unfold checked in C. destruct (smem t not_read) eqn:E; [apply smem_In in E; contradiction|].
  destruct (kw_of B ty (VStr t) opts) as [K|]; [|discriminate]. apply Bool.andb_true_iff in C as [C1 C2]. exists K. split; [reflexivity|].
  assert (Q : solid (kw_kre K) = true /\ (kre_ok (kw_kre K) = true \/ (greedy (kw_kre K) = true /\ In t may_be_hidden))).
  { destruct (smem t may_be_hidden) eqn:E2; [apply smem_In in E2; apply Bool.andb_true_iff in C1; tauto|]. split; [apply kre_ok_solid, C1|auto]. }
  split; [tauto|]. split; [tauto|]. intros (W1 & W2 & W3 & W4 & W5). assert (Wb : whole_b B opts = true) by (unfold whole_b, dmem; rewrite W1, W2, W3, W4, W5; reflexivity). rewrite Wb in C2. cbn [negb orb] in C2.
  unfold gives_b in C2. unfold gives. destruct (dget opts (KS (lit "value"))) as [[|b|z|q|v|v|l|d]|]; try discriminate; [exists v; left; reflexivity|].
  destruct (dget d (KS (b_name B))) as [[|b|z|q|v|v|l|d']|] eqn:Ed; try discriminate. exists v. right. exists d. auto.
Qed.
Lemma default_lenient B evs : In (B, evs) default_keywords -> lenient (b_validator B).
Proof.
  assert (L : lenient (Plain seps_surround)) by (intros s m H; apply seps_alone, H).
  intros H. apply (in_map fst) in H. cbv [map fst default_keywords] in H. cbn [In] in H.
  destruct H as [<-|[<-|[<-|[<-|[<-|[<-|[<-|[<-|[<-|[<-|[]]]]]]]]]]]; try exact I; try exact L. clear L.
  intros s m H. destruct (before_alone s m _ _ eq_refl eq_refl H) as (A & _ & _). rewrite A. reflexivity.
Qed.
(** ** C90 for the default configuration *)
(** a keyword that reports its whole text, standing alone: reported with the value of its entry *)
Theorem C90_default B evs ty ps opts t :
  In (B, evs) default_keywords -> In (EReg ty ps opts) evs -> In (VStr t) ps -> ~ In t not_read -> whole B opts ->
  exists K v, kw_of B ty (VStr t) opts = Some K /\ gives opts (b_name B) v /\
    forall s a b, alone s a b -> written (kw_kre K) s a b -> (In t may_be_hidden -> free (kw_kre K) s a b) ->
      exists ms, kw_matches K s = Ok ms /\ shows ms a b (b_name B) (MvStr v).
Proof.
  intros H1 H2 H3 H4 W. destruct (default_checked B evs ty ps opts t H1 H2 H3 H4) as (K & EK & So & Or & G). destruct (G W) as [v Hv]. exists K, v. split; [exact EK|]. split; [exact Hv|].
  intros s a b Al Wr Fr. apply (C90_alone B ty (VStr t) opts K v s a b EK So (default_lenient B evs H1) W Hv Al Wr). tauto.
Qed.
Print Assumptions C90_default.

(** ** sources followed by Rip *)
(** source.py:37-39 with [suffix=optional(rip_suffix)]: the expression [p], then an optional separator and Rip *)
Definition rip_kre (n : nat) (p : kre) : kre :=
  KSeq (KGrp 1 [] p)
    (KSeq (KOpt (KSeq (KSeq (KOpt (KItem ISep)) (KSeq (KGrp n (lit "other") (KSeq (KItem (IChr 82)) (KSeq (KItem (IChr 105)) (KSeq (KItem (IChr 112)) KEps)))) KEps)) KEps)) KEps).
Lemma M_eps_inv s i c j d : M s REps i c j d -> j = i /\ d = c.
Proof. intros H; inversion H; auto. Qed.
Lemma rip_read s n p a b c : a <= List.length s -> M s (kre_re (rip_kre n p)) a [] b c ->
  exists m d, a <= m <= b /\ b <= List.length s /\ spells p (slice a m s) (skipn m s) /\
    ((m = b /\ c = (1, (a, m)) :: d) \/
     exists x, (x = m \/ (x = S m /\ exists ch, nth_error s m = Some ch /\ In ch seps_no_fs)) /\ lower (slice x b s) = lit "rip" /\ c = (n, (x, b)) :: (1, (a, m)) :: d).
Proof.
  intros La H. unfold rip_kre in H. cbn [kre_re] in H. apply M_seq_inv in H as (m & c1 & H1 & H2). apply M_grp_inv in H1 as (d & -> & H1). apply M_seq_inv in H2 as (b' & c2 & H2 & H3). apply M_eps_inv in H3 as [<- <-].
  pose proof (M_mono _ _ _ _ _ _ H1) as [L1 L1']. specialize (L1' La). destruct (proj1 (M_spells s p a [] m La)) as [_ Sp]; [eauto|]. exists m, d.
  apply M_alt_inv in H2 as [H2|H2].
  - apply M_seq_inv in H2 as (b1 & c2 & H2 & H3). apply M_eps_inv in H3 as [<- <-]. apply M_seq_inv in H2 as (x & c2 & H2 & H3). apply M_seq_inv in H3 as (b1 & c3 & H3 & H4). apply M_eps_inv in H4 as [<- <-].
    apply M_grp_inv in H3 as (e & -> & H3).
    assert (Hx : (x = m \/ (x = S m /\ exists ch, nth_error s m = Some ch /\ In ch seps_no_fs)) /\ c2 = (1, (a, m)) :: d).
    { apply M_alt_inv in H2 as [H2|H2]; [|apply M_eps_inv in H2 as [-> ->]; auto]. apply M_chr_inv in H2 as (-> & -> & ch & E & A). split; [right|reflexivity]. split; [reflexivity|]. exists ch. split; [exact E|]. apply cmem_In. exact A. }
    destruct Hx as [Hx ->]. assert (Lx : x <= List.length s) by (destruct Hx as [->|(-> & ch & E & _)]; [lia|apply WordsProofs.nth_error_lt in E; lia]).
    pose proof (M_mono _ _ _ _ _ _ H3) as [L3 L3']. specialize (L3' Lx).
    destruct (proj1 (M_spells s (text_kre true (lit "Rip")) x ((1, (a, m)) :: d) b Lx)) as [_ Sr]; [exists e; exact H3|]. apply text_spells in Sr.
    assert (Ee : e = (1, (a, m)) :: d) by exact (text_caps true s (lit "Rip") _ _ _ _ H3).
    split; [destruct Hx as [->|(-> & _)]; lia|]. split; [lia|]. split; [exact Sp|]. right. exists x. split; [exact Hx|]. split; [exact Sr|]. rewrite Ee. reflexivity.
  - apply M_eps_inv in H2 as [-> ->]. split; [lia|]. split; [lia|]. split; [exact Sp|]. left. auto.
Qed.
Definition source_values (opts : dict) (v : str) : Prop :=
  exists d, dget opts (KS (lit "value")) = Some (VDict d) /\ dget d (KS (lit "source")) = Some (VStr v) /\ dget d (KS (lit "other")) = Some (VStr (lit "Rip")).
(** a source, alone or followed by Rip: the source and the Rip are both reported, at their place *)
Theorem C90_rip ty t opts K n p v s a b :
  kw_of source_builder ty (VStr t) opts = Some K -> solid (kw_kre K) = true -> greedy (kw_kre K) = true ->
  kw_kre K = rip_kre n p -> n <> 1 -> dget opts (KS (lit "children")) = None -> dget opts (KS (lit "name")) = None -> dget opts (KS (lit "validator")) = None -> source_values opts v ->
  alone s a b -> written (kw_kre K) s a b -> free (kw_kre K) s a b ->
  exists ms m, kw_matches K s = Ok ms /\ a <= m <= b /\ spells p (slice a m s) (skipn m s) /\ shows ms a m (lit "source") (MvStr v) /\
    (m = b \/ exists x, (x = m \/ (x = S m /\ exists c, nth_error s m = Some c /\ In c seps_no_fs)) /\ lower (slice x b s) = lit "rip" /\ shows ms x b (lit "other") (MvStr (lit "Rip"))).
Proof.
  intros HK So Gr Ek N1 O1 O2 O3 (d & V & V1 & V2) Al W Fr.
  assert (exists value, value_of_opt opts = Some value) as [value Ev].
  { unfold kw_of in HK. destruct (_ || _); [discriminate|]. destruct (validator_of _ _); [|discriminate]. destruct (tags_of _ _); [|discriminate]. destruct (value_of_opt opts); [eauto|discriminate]. }
  assert (Vs : forall x, value (lit "source") x = MvStr v) by (intros x; apply (gives_value opts value (lit "source") v x Ev); right; eauto).
  assert (Vo : forall x, value (lit "other") x = MvStr (lit "Rip")) by (intros x; apply (gives_value opts value (lit "other") (lit "Rip") x Ev); right; eauto).
  assert (Hl : lenient (b_validator source_builder)) by (apply (default_lenient source_builder source_events); unfold default_keywords; cbn [In]; tauto).
  destruct (C90_groups source_builder ty (VStr t) opts K (b_validator source_builder) value s a b HK So) as (ms & c & E & HM & G); try assumption; try (right; split; assumption).
  - rewrite O1. reflexivity.
  - unfold validator_of. rewrite O3. reflexivity.
  - discriminate.
  - rewrite Ek in HM, G. assert (La : a <= List.length s) by (apply written_iff in W; tauto). destruct (rip_read s n p a b c La HM) as (m & e & Lm & Lb & Sp & Or).
    exists ms, m. split; [exact E|]. split; [exact Lm|]. split; [exact Sp|].
    assert (I1 : In (1, []) (kre_groups (rip_kre n p))) by (left; reflexivity).
    assert (I2 : In (n, lit "other") (kre_groups (rip_kre n p))) by (unfold rip_kre; cbn [kre_groups app]; right; apply in_or_app; right; left; reflexivity).
    assert (G1 : group 1 c = Some (a, m)).
    { destruct Or as [[_ ->]|(x & _ & _ & ->)]; [reflexivity|]. cbn [group]. destruct (Nat.eqb_spec 1 n) as [e'|]; [congruence|reflexivity]. }
    split.
    + specialize (G 1 [] a m I1 G1). cbn [group_name] in G. change (b_name source_builder) with (lit "source") in G. rewrite Vs in G. exact G.
    + destruct Or as [[-> _]|(x & Hx & Hr & ->)]; [left; reflexivity|]. right. exists x. split; [exact Hx|]. split; [exact Hr|].
      specialize (G n (lit "other") x b I2). cbn [group] in G. rewrite Nat.eqb_refl in G. specialize (G eq_refl). change (group_name (b_name source_builder) (lit "other")) with (lit "other") in G. rewrite Vo in G. exact G.
Qed.
Print Assumptions C90_rip.
(** the sources that are so *)
Definition rip_shape (k : kre) : option (nat * kre) :=
  match k with
  | KSeq (KGrp 1 [] p) (KSeq (KOpt (KSeq (KSeq (KOpt (KItem ISep)) (KSeq (KGrp n o (KSeq (KItem (IChr r)) (KSeq (KItem (IChr i)) (KSeq (KItem (IChr q)) KEps)))) KEps)) KEps)) KEps) =>
      if str_eqb o (lit "other") && N.eqb r 82 && N.eqb i 105 && N.eqb q 112 && negb (Nat.eqb n 1) then Some (n, p) else None
  | _ => None
  end.
Lemma rip_shape_true k n p : rip_shape k = Some (n, p) -> k = rip_kre n p /\ n <> 1.
Proof.
  unfold rip_shape.
  repeat match goal with |- context [match ?x with _ => _ end] => is_var x; destruct x; try discriminate end.
  all: try (destruct (_ && _) eqn:E; [|discriminate]). 
  rewrite !Bool.andb_true_iff, Bool.negb_true_iff, Nat.eqb_neq in E. destruct E as ((((E1 & E2) & E3) & E4) & E5). apply str_eqb_eq in E1. apply N.eqb_eq in E2, E3, E4. intros H; injection H as <- <-. subst. split; [reflexivity|exact E5].
Qed.
Definition rip_checked (ty : str) (opts : dict) (p : val) : bool :=
  match p with
  | VStr t =>
      if endswith (lit "(?:-?(?P<other>Rip))?") t then
        match kw_of source_builder ty p opts with
        | Some K => solid (kw_kre K) && greedy (kw_kre K) && match rip_shape (kw_kre K) with Some _ => true | None => false end
        | None => false
        end && negb (dmem opts (KS (lit "children"))) && negb (dmem opts (KS (lit "name"))) && negb (dmem opts (KS (lit "validator"))) &&
        match dget opts (KS (lit "value")) with
        | Some (VDict d) => match dget d (KS (lit "source")), dget d (KS (lit "other")) with Some (VStr _), Some (VStr r) => str_eqb r (lit "Rip") | _, _ => false end
        | _ => false
        end
      else true
  | _ => false
  end.
Lemma rips_checked : forallb (fun e => match e with EReg ty ps opts => forallb (rip_checked ty opts) ps | ECall _ _ => true end) source_events = true.
Proof. vm_compute. reflexivity. Qed.
(** every source of source.py that may be followed by Rip *)
Theorem C90_sources ty ps opts t :
  In (EReg ty ps opts) source_events -> In (VStr t) ps -> endswith (lit "(?:-?(?P<other>Rip))?") t = true ->
  exists K n p v d, kw_of source_builder ty (VStr t) opts = Some K /\ kw_kre K = rip_kre n p /\ dget opts (KS (lit "value")) = Some (VDict d) /\ dget d (KS (lit "source")) = Some (VStr v) /\
    forall s a b, alone s a b -> written (kw_kre K) s a b -> free (kw_kre K) s a b ->
      exists ms m, kw_matches K s = Ok ms /\ a <= m <= b /\ spells p (slice a m s) (skipn m s) /\ shows ms a m (lit "source") (MvStr v) /\
        (m = b \/ exists x, (x = m \/ (x = S m /\ exists c, nth_error s m = Some c /\ In c seps_no_fs)) /\ lower (slice x b s) = lit "rip" /\ shows ms x b (lit "other") (MvStr (lit "Rip"))).
Proof.
  intros H1 H2 H3. pose proof rips_checked as C. rewrite forallb_forall in C. specialize (C _ H1). cbv beta iota in C. rewrite forallb_forall in C. specialize (C _ H2). unfold rip_checked in C. rewrite H3 in C.
  rewrite !Bool.andb_true_iff, !Bool.negb_true_iff in C. destruct C as ((((C1 & C2) & C3) & C4) & C5).
  assert (D : forall k, dmem opts k = false -> dget opts k = None) by (intros k; unfold dmem; destruct (dget opts k); [discriminate|reflexivity]).
  apply D in C2, C3, C4. destruct (kw_of source_builder ty (VStr t) opts) as [K|] eqn:EK; [|discriminate]. rewrite !Bool.andb_true_iff in C1. destruct C1 as ((So & Gr) & Sh).
  destruct (rip_shape (kw_kre K)) as [[n p]|] eqn:ES; [|discriminate]. apply rip_shape_true in ES as [ES N1].
  destruct (dget opts (KS (lit "value"))) as [[|bb|z|q|vv|vv|l|d]|] eqn:Ev; try discriminate. destruct (dget d (KS (lit "source"))) as [[|bb|z|q|v|vv|l|d']|] eqn:E1; try discriminate.
  destruct (dget d (KS (lit "other"))) as [[|bb|z|q|r|vv|l|d']|] eqn:E2; try discriminate. apply str_eqb_eq in C5. subst r.
  exists K, n, p, v, d. split; [reflexivity|]. split; [exact ES|]. split; [reflexivity|]. split; [exact E1|]. intros s a b Al W Fr.
  apply (C90_rip ty t opts K n p v s a b EK So Gr ES N1 C2 C3 C4); try assumption. exists d. auto.
Qed.
Print Assumptions C90_sources.

(** ** examples *)
(** a check for [free] on a given name *)
Definition free_b (k : kre) (s : str) (a b : nat) : bool :=
  forallb (fun a' => forallb (fun x => negb (alt_ok s a' x) || (a' + List.length (al_items x) <=? a)) (alts k)) (seq 0 a) &&
  forallb (fun x => negb (alt_ok s a x) || (a + List.length (al_items x) <=? b)) (alts k).
Lemma free_b_true k s a b : free_b k s a b = true -> free k s a b.
Proof.
  unfold free_b. rewrite Bool.andb_true_iff, !forallb_forall. intros [H1 H2]. split.
  - intros a' b' W L. apply written_iff in W as [La [d HM]]. destruct (M_alt s k a' b' d HM La) as (x & Hx & Ox & ->). specialize (H1 a' ltac:(apply in_seq; lia)). rewrite forallb_forall in H1. specialize (H1 x Hx). rewrite Ox in H1. cbn [negb orb] in H1. apply Nat.leb_le, H1.
  - intros b' W. apply written_iff in W as [La [d HM]]. destruct (M_alt s k a b' d HM La) as (x & Hx & Ox & ->). specialize (H2 x Hx). rewrite Ox in H2. cbn [negb orb] in H2. apply Nat.leb_le, H2.
Qed.
Definition written_b (k : kre) (s : str) (a b : nat) : bool := (a <=? List.length s) && existsb (fun x => alt_ok s a x && Nat.eqb (a + List.length (al_items x)) b) (alts k).
Definition public_of (r : res (list mt)) : list (nat * nat * str * mval) :=
  match r with Ok ms => map (fun m => (m_start m, m_end m, m_name m, m_value m)) (filter (fun m => negb (m_private m)) ms) | Err _ => [] end.
(** all that the keywords of a builder report *)
Definition reported (B : builder) (evs : list event) (s : str) : list (nat * nat * str * mval) :=
  flat_map (fun e => flat_map (fun K => match K with Some K => public_of (kw_matches K s) | None => [] end) (event_kws B e)) evs.
Example seen_sources :
  map (fun t => reported source_builder source_events (lit t)) ["Movie.BluRay-Rip.mkv"; "Movie.blu-ray.mkv"; "Movie.HDTV.x264"]%string =
  [[(6, 12, lit "source", MvStr (lit "Blu-ray")); (13, 16, lit "other", MvStr (lit "Rip"))];
   [(6, 13, lit "source", MvStr (lit "Blu-ray"))];
   [(6, 10, lit "source", MvStr (lit "HDTV"))]].
Proof. vm_compute. reflexivity. Qed.
(** [Mux] inside [REMUX] is left for the solver of conflicts *)
Example seen_others : reported other_builder (registered other_config) (lit "Movie.3D.REMUX.Extras.mkv") =
  [(9, 14, lit "other", MvStr (lit "Remux")); (6, 8, lit "other", MvStr (lit "3D")); (11, 14, lit "other", MvStr (lit "Mux")); (15, 21, lit "other", MvStr (lit "Extras"))].
Proof. vm_compute. reflexivity. Qed.
Example seen_services : reported streaming_service_builder (registered streaming_service_config) (lit "Movie.2010.NF.WEB") = [(11, 13, lit "streaming_service", MvStr (lit "Netflix"))].
Proof. vm_compute. reflexivity. Qed.
(** a case of [C90_sources] *)
Example rip_case : exists K n p, kw_of source_builder (lit "regex") (VStr (lit "(Blu-?ray)(?:-?(?P<other>Rip))?")) (by_name [("source", "Blu-ray"); ("other", "Rip")]%string) = Some K /\
  kw_kre K = rip_kre n p /\ written_b (kw_kre K) (lit "Movie.BluRay-Rip.mkv") 6 16 = true /\ free_b (kw_kre K) (lit "Movie.BluRay-Rip.mkv") 6 16 = true.
Proof.
  eexists _, 2, _. split; [vm_compute; reflexivity|]. split; [reflexivity|]. split; vm_compute; reflexivity.
Qed.

(** ** what is not so: a shorter text of the same keyword is hidden, although it stands alone *)
Theorem C90_limit : 
  (forall v, ~ In (9, 17, lit "edition", v) (reported edition_builder (registered edition_config) (lit "Movie.4k.remaster.mkv"))) /\
  In (6, 17, lit "edition", MvStr (lit "Remastered")) (reported edition_builder (registered edition_config) (lit "Movie.4k.remaster.mkv")).
Proof.
  assert (E : reported edition_builder (registered edition_config) (lit "Movie.4k.remaster.mkv") = [(6, 17, lit "edition", MvStr (lit "Remastered"))]) by (vm_compute; reflexivity). rewrite E. split; [|left; reflexivity].
  intros v [H|[]]. discriminate H.
Qed.
