(** Ultra HD Blu-ray sources (C75, last part). *)
From Verif Require Import Py PyFacts Text Sort Common Rebulk RebulkFacts RuleSpec OtherProps Title TitleProofs TitleConflictProps EpisodeTitle HolesMore Episodes EpisodesProofs EpisodeRules EpisodeRulesProps EpisodeWeakProps Language Technical TechnicalProps SourceProps.
From Coq Require Import Arith ZifyBool Sorted.

(** ** Specification *)
Definition is_uhd (m : mt) : Prop := m_private m = false /\ m_name m = lit "other" /\ m_value m = MvStr (lit "Ultra HD").
Definition is_bluray (m : mt) : Prop := m_private m = false /\ m_name m = lit "source" /\ m_value m = MvStr (lit "Blu-ray").
Definition as_ultra (m : mt) : mt := set_value m (MvStr (lit "Ultra HD Blu-ray")).
(** [x] is, of the matches of the zone that satisfy [P], one that starts last, and ends last of those *)
Definition rightmost (ms : list mt) (a b : nat) (P : mt -> Prop) (x : mt) : Prop :=
  (In x ms /\ m_start x < b /\ a < m_end x /\ P x) /\ forall y, In y ms -> m_start y < b -> a < m_end y -> P y -> pos_le y x.
(** between two places there are only separators and matches, and the visible ones are screen sizes, colour depths or declared neighbours *)
Definition fits (s : str) (ms : list mt) (a b : nat) : Prop :=
  adjacent s ms a b /\ forall y, In y ms -> m_private y = false -> m_start y < b -> a < m_end y ->
    m_name y = lit "screen_size" \/ m_name y = lit "color_depth" \/ m_name y = lit "other" /\ tag "uhdbluray-neighbor" y.
(** the match of Ultra HD that goes with the source [x] of the component [part] *)
Definition goes_with (s : str) (ms : list mt) (part x o : mt) : Prop :=
  (rightmost ms (m_start part) (m_start x) is_uhd o /\ fits s ms (m_end o) (m_start x)) \/
  (leftmost ms (m_end x) (m_end part) is_uhd o /\ fits s ms (m_end x) (m_start o)).
Definition in_2160p (ms : list mt) (part : mt) : Prop := exists y, In y ms /\ touches part y /\ m_name y = lit "screen_size" /\ m_value y = MvStr (lit "2160p").

(** ** Proofs *)
Lemma uhd_iff m : ultra_hd m = true <-> is_uhd m.
Proof. unfold ultra_hd, is_uhd. rewrite !Bool.andb_true_iff, Bool.negb_true_iff, has_name_iff, is_text_iff. tauto. Qed.
Lemma bluray_iff m : blu_ray m = true <-> is_bluray m.
Proof. unfold blu_ray, is_bluray. rewrite !Bool.andb_true_iff, Bool.negb_true_iff, has_name_iff, is_text_iff. tauto. Qed.
Lemma rightmost_range s ms a b p (P : mt -> Prop) : inside s ms -> b <= List.length s -> (forall m, p m = true <-> P m) ->
  match last_o (range s ms a b p) with
  | Some x => rightmost ms a b P x
  | None => forall y, In y ms -> m_start y < b -> a < m_end y -> ~ P y
  end.
Proof.
  intros I B HP. pose proof (range_last s ms a b p I B) as R. destruct (last_o (range s ms a b p)) as [x|].
  - destruct R as [(A1 & A2 & A3 & A4) R]. split; [rewrite <- HP; auto|]. intros y Y1 Y2 Y3 Y4. apply mt_le_iff. apply R; auto. apply HP; exact Y4.
  - intros y Y1 Y2 Y3 Y4. apply HP in Y4. rewrite (R y Y1 Y2 Y3) in Y4. discriminate.
Qed.
Lemma rightmost_span ms a b P x y : rightmost ms a b P x -> rightmost ms a b P y -> m_start x = m_start y /\ m_end x = m_end y.
Proof. intros [(A1 & A2 & A3 & A4) A] [(B1 & B2 & B3 & B4) B]. specialize (A y B1 B2 B3 B4). specialize (B x A1 A2 A3 A4). unfold pos_le in *. lia. Qed.
Lemma fits_iff s ms a b : nonempty ms -> inside s ms -> b <= List.length s -> uhd_range s ms a b = true <-> fits s ms a b.
Proof.
  intros NE I B. unfold uhd_range, fits. rewrite Bool.andb_true_iff, not_text by auto. apply and_iff_compat_l. rewrite Bool.negb_true_iff, nonnil_no.
  split; intros H y.
  - intros Y1 Y2 Y3 Y4.
    assert (~ In y (range s ms a b (fun m => negb (m_private m) && (negb (named_in [lit "screen_size"; lit "color_depth"] m) && (negb (has_name (lit "other") m) || negb (has_tag (lit "uhdbluray-neighbor") m)))))) as K by apply H.
    rewrite range_In' in K by auto. rewrite Y2 in K.
    destruct (named_in [lit "screen_size"; lit "color_depth"] y) eqn:N; [apply smem_In in N; cbn [In] in N; intuition|].
    destruct (has_name (lit "other") y) eqn:O; [|destruct K; auto]. destruct (has_tag (lit "uhdbluray-neighbor") y) eqn:T; [|destruct K; auto].
    apply has_name_iff in O. apply has_tag_iff in T. auto.
  - intros K. apply range_In' in K as (Y1 & Y2 & Y3 & Y4); auto. rewrite !Bool.andb_true_iff, Bool.orb_true_iff, !Bool.negb_true_iff in Y4. destruct Y4 as (P & N & O).
    assert (~ In (m_name y) [lit "screen_size"; lit "color_depth"]) as N' by (rewrite <- smem_In; unfold named_in in N; congruence).
    destruct (H y Y1 P Y2 Y3) as [E|[E|[E T]]]; [apply N'; cbn; auto|apply N'; cbn; auto|]. destruct O as [O|O]; [apply has_name_false in O; auto|apply has_tag_false in O; auto].
Qed.
Lemma truthy_some ms x : nonempty ms -> In x ms -> truthy_o (Some x) = Some x.
Proof. intros NE H. specialize (NE x H). unfold truthy_o, m_truthy. apply Nat.ltb_lt in NE. rewrite NE. reflexivity. Qed.
Lemma in_2160p_iff s markers ms part : ep_ok s markers ms -> In part markers -> has_2160p s ms part = true <-> in_2160p ms part.
Proof.
  intros W P. unfold has_2160p, in_2160p. rewrite nonnil_ex. split; intros (y & Y); exists y.
  - apply (part_In s markers) in Y as (A & B & C); auto. apply Bool.andb_true_iff in C as [C D]. apply has_name_iff in C. apply is_text_iff in D. auto.
  - apply (part_In s markers); auto. destruct Y as (A & B & C & D). rewrite (proj2 (has_name_iff _ _) C), (proj2 (is_text_iff _ _) D). auto.
Qed.
(** the decision for one source, and the match that is hidden *)
Lemma decision s markers ms part x : ep_ok s markers ms -> In part markers -> In x ms ->
  (fst (uhd_other s ms part x) = true <-> (exists o, goes_with s ms part x o) \/ in_2160p ms part) /\
  (forall o, snd (uhd_other s ms part x) = Some o -> In o ms /\ is_uhd o) /\
  ((exists o, goes_with s ms part x o) -> exists o, snd (uhd_other s ms part x) = Some o /\ goes_with s ms part x o).
Proof.
  intros W P X. pose proof (eo_inside _ _ _ W) as I. pose proof (eo_nonempty _ _ _ W) as NE. pose proof (I x X) as Ix. pose proof (NE x X) as Nx. pose proof (eo_markers _ _ _ W part P) as M.
  pose proof (in_2160p_iff s markers ms part W P) as T.
  assert (BX : m_start x <= List.length s) by lia.
  pose proof (rightmost_range s ms (m_start part) (m_start x) ultra_hd is_uhd I BX uhd_iff) as R.
  pose proof (leftmost_range s ms (m_end x) (m_end part) ultra_hd is_uhd I M uhd_iff) as L.
  assert (A : (fst (uhd_after s ms part x) = true <-> (exists o, leftmost ms (m_end x) (m_end part) is_uhd o /\ fits s ms (m_end x) (m_start o)) \/ in_2160p ms part) /\
    (forall o, snd (uhd_after s ms part x) = Some o -> In o ms /\ is_uhd o) /\
    ((exists o, leftmost ms (m_end x) (m_end part) is_uhd o /\ fits s ms (m_end x) (m_start o)) -> exists o, snd (uhd_after s ms part x) = Some o /\ leftmost ms (m_end x) (m_end part) is_uhd o /\ fits s ms (m_end x) (m_start o))).
  { unfold uhd_after. destruct (first (range s ms (m_end x) (m_end part) ultra_hd)) as [o|].
    - assert (O : In o ms) by apply L. rewrite (truthy_some ms o NE O). pose proof (I o O). pose proof (NE o O).
      assert (F : uhd_range s ms (m_end x) (m_start o) = true <-> fits s ms (m_end x) (m_start o)) by (apply fits_iff; auto; lia).
      assert (U : forall o', leftmost ms (m_end x) (m_end part) is_uhd o' -> m_start o' = m_start o) by (intros o' H'; apply (leftmost_span ms (m_end x) (m_end part) is_uhd); auto).
      destruct (uhd_range s ms (m_end x) (m_start o)); cbn [fst snd]; (split; [|split]).
      + split; [intros _; left; exists o; split; [exact L|apply F; reflexivity]|reflexivity].
      + intros o' E. injection E as <-. split; [exact O|apply L].
      + intros _. exists o. split; [reflexivity|]. split; [exact L|apply F; reflexivity].
      + rewrite T. split; [auto|]. intros [(o' & L' & F')|H']; [|exact H']. rewrite (U o' L') in F'. apply F in F'. discriminate.
      + intros o' E. injection E as <-. split; [exact O|apply L].
      + intros (o' & L' & F'). rewrite (U o' L') in F'. apply F in F'. discriminate.
    - cbn [truthy_o fst snd]. assert (U : forall o', ~ leftmost ms (m_end x) (m_end part) is_uhd o') by (intros o' [(H1 & H2 & H3 & H4) _]; apply (L o'); auto).
      split; [|split]; [|intros; discriminate|intros (o' & L' & _); destruct (U o' L')]. rewrite T. split; [auto|]. intros [(o' & L' & F')|H']; [destruct (U o' L')|exact H']. }
  unfold uhd_other, goes_with. destruct A as (A1 & A2 & A3). destruct (last_o (range s ms (m_start part) (m_start x) ultra_hd)) as [o|].
  - assert (O : In o ms) by apply R. rewrite (truthy_some ms o NE O).
    assert (F : uhd_range s ms (m_end o) (m_start x) = true <-> fits s ms (m_end o) (m_start x)) by (apply fits_iff; auto).
    assert (U : forall o', rightmost ms (m_start part) (m_start x) is_uhd o' -> m_end o' = m_end o) by (intros o' H'; apply (rightmost_span ms (m_start part) (m_start x) is_uhd); auto).
    destruct (uhd_range s ms (m_end o) (m_start x)); cbn [fst snd].
    + assert (G : rightmost ms (m_start part) (m_start x) is_uhd o /\ fits s ms (m_end o) (m_start x)) by (split; [exact R|apply F; reflexivity]).
      split; [split; [intros _; left; exists o; left; exact G|reflexivity]|]. split; [intros o' E; injection E as <-; split; [exact O|apply R]|]. intros _. exists o. split; [reflexivity|left; exact G].
    + assert (G : forall o', ~ (rightmost ms (m_start part) (m_start x) is_uhd o' /\ fits s ms (m_end o') (m_start x))) by (intros o' [R' F']; rewrite (U o' R') in F'; apply F in F'; discriminate).
      split; [rewrite A1; split; [intros [(o' & H')|H']; [left; exists o'; right; exact H'|right; exact H']|intros [(o' & [H'|H'])|H']; [destruct (G o' H')|left; exists o'; exact H'|right; exact H']]|].
      split; [exact A2|]. intros (o' & [H'|H']); [destruct (G o' H')|]. destruct A3 as (o2 & E2 & H2); [exists o'; exact H'|]. exists o2. auto.
  - cbn [truthy_o]. assert (G : forall o', ~ (rightmost ms (m_start part) (m_start x) is_uhd o' /\ fits s ms (m_end o') (m_start x))) by (intros o' [[(H1 & H2 & H3 & H4) _] _]; apply (R o'); auto).
    split; [rewrite A1; split; [intros [(o' & H')|H']; [left; exists o'; right; exact H'|right; exact H']|intros [(o' & [H'|H'])|H']; [destruct (G o' H')|left; exists o'; exact H'|right; exact H']]|].
    split; [exact A2|]. intros (o' & [H'|H']); [destruct (G o' H')|]. destruct A3 as (o2 & E2 & H2); [exists o'; exact H'|]. exists o2. auto.
Qed.

(** ** what the rule may change, whatever the sources *)
Definition hide_some (h : mt -> bool) (x : mt) : mt := if h x then set_private x else x.
Lemma hide_key h x : mkey (hide_some h x) = mkey x.
Proof. unfold hide_some. destruct (h x); reflexivity. Qed.
Lemma hide_map_distinct h ms : distinct ms -> distinct (map (hide_some h) ms).
Proof. unfold distinct. rewrite map_map. rewrite (map_ext (fun x => mkey (hide_some h x)) mkey) by apply hide_key. auto. Qed.
Lemma hide_ok s markers h ms : ep_ok s markers ms -> ep_ok s markers (map (hide_some h) ms).
Proof.
  intros [D NE I M]. split; [apply hide_map_distinct, D| | |exact M].
  - intros x Hx. apply in_map_iff in Hx as (y & <- & Hy). unfold hide_some. destruct (h y); apply (NE y Hy).
  - intros x Hx. apply in_map_iff in Hx as (y & <- & Hy). unfold hide_some. destruct (h y); apply (I y Hy).
Qed.
(** the matches so far: some of the Ultra HD ones are hidden; the sources are replaced *)
Definition uhd_inv (ms : list mt) (st : list mt * change) : Prop :=
  (exists h, (forall x, In x ms -> h x = true -> is_uhd x) /\ fst st = map (hide_some h) ms) /\
  (forall x, In x (fst (snd st)) -> In x ms /\ is_bluray x) /\ snd (snd st) = map as_ultra (fst (snd st)).
Lemma hide_private o ms : distinct ms -> In o ms -> make_private o ms = map (hide_some (mt_eqb o)) ms.
Proof. reflexivity. Qed.
Lemma step_inv s markers ms part x st : ep_ok s markers ms -> In part markers -> uhd_inv ms st -> In x (fst st) -> is_bluray x -> uhd_inv ms (uhd_step s part st x).
Proof.
  intros W P V X B. assert (X' : In x ms).
  { destruct V as ((h & H & E) & _). rewrite E in X. apply in_map_iff in X as (y & Ey & Y). unfold hide_some in Ey. destruct (h y) eqn:Hy; [|subst; exact Y].
    apply (H y Y) in Hy. destruct B as (_ & B & _), Hy as (_ & N & _). subst x. cbn [m_name set_private] in B. rewrite N in B. discriminate. }
  assert (Wst : ep_ok s markers (fst st)) by (destruct V as ((h & _ & E) & _); rewrite E; apply hide_ok, W).
  destruct (decision s markers (fst st) part x Wst P X) as (D1 & D2 & D3). unfold uhd_step. destruct (uhd_other s (fst st) part x) as [[|] o] eqn:E; [|exact V]. cbn [fst snd] in *.
  destruct V as ((h & H & Es) & R & A). split; [|split].
  - destruct o as [o|]; cbn [fst]; [|exists h; auto]. destruct (D2 o eq_refl) as [O1 O2]. exists (fun z => h z || mt_eqb o z). split.
    + intros z Z Hz. apply Bool.orb_true_iff in Hz as [Hz|Hz]; [apply H; auto|]. apply mt_eqb_eq in Hz. rewrite Es in O1. apply in_map_iff in O1 as (w & Ew & Hw).
      assert (w = z) by (apply (distinct_inj ms); [apply W|exact Hw|exact Z|rewrite <- (hide_key h w), Ew; exact Hz]). subst w.
      unfold hide_some in Ew. destruct (h z) eqn:F; [apply H; auto|subst o; exact O2].
    + unfold make_private. rewrite Es, map_map. apply map_ext. intros z. unfold hide_some at 2. destruct (h z) eqn:F; cbn [orb].
      * unfold hide_some. rewrite F. destruct (mt_eqb o (set_private z)); reflexivity.
      * unfold hide_some. rewrite F. destruct (mt_eqb o z); reflexivity.
  - cbn [fst snd]. intros z Z. apply in_app_iff in Z as [Z|[<-|[]]]; [apply R; exact Z|]. split; [exact X'|exact B].
  - cbn [fst snd]. rewrite A, map_app. reflexivity.
Qed.
Lemma parts_inv s markers ms : ep_ok s markers ms -> uhd_inv ms (fold_left (uhd_part s) (parts_of markers) (ms, ([], []))).
Proof.
  intros W. assert (G : forall l st, (forall p, In p l -> In p markers) -> uhd_inv ms st -> uhd_inv ms (fold_left (uhd_part s) l st)).
  { induction l as [|part l IH]; intros st Hl V; cbn [fold_left]; [exact V|]. apply IH; [intros p Hp; apply Hl; right; exact Hp|].
    assert (P : In part markers) by (apply Hl; left; reflexivity).
    assert (Wst : ep_ok s markers (fst st)) by (destruct V as ((h & _ & E) & _); rewrite E; apply hide_ok, W).
    assert (K : forall l' st', uhd_inv ms st' -> (forall x, In x l' -> In x ms /\ is_bluray x) -> uhd_inv ms (fold_left (uhd_step s part) l' st')).
    { induction l' as [|x l' IH']; intros st' V' Hx; cbn [fold_left]; [exact V'|]. apply IH'; [|intros y Hy; apply Hx; right; exact Hy]. destruct (Hx x (or_introl eq_refl)) as [X B].
      apply (step_inv s markers); auto. destruct V' as ((h & H & E) & _). rewrite E. apply in_map_iff. exists x. split; [|exact X]. unfold hide_some. destruct (h x) eqn:F; [|reflexivity].
      apply (H x X) in F. destruct B as (_ & B & _), F as (_ & F & _). rewrite F in B. discriminate. }
    apply K; [exact V|]. intros x Hx. apply (part_In s markers) in Hx as (A1 & A2 & A3); auto. apply bluray_iff in A3. split; [|exact A3].
    destruct V as ((h & H & E) & _). rewrite E in A1. apply in_map_iff in A1 as (y & Ey & Y). unfold hide_some in Ey. destruct (h y) eqn:F; [|subst; exact Y].
    apply (H y Y) in F. destruct A3 as (_ & B & _), F as (_ & F & _). subst x. cbn [m_name set_private] in B. rewrite F in B. discriminate. }
  apply G; [intros p Hp; apply parts_iff in Hp; apply Hp|]. split; [exists (fun _ => false); split; [discriminate|cbn [fst]; symmetry; apply map_id]|]. cbn [fst snd map In]. split; [tauto|reflexivity].
Qed.
(** the rule turns Blu-ray sources into Ultra HD Blu-ray ones and hides Ultra HD matches; it does nothing else *)
Theorem C75_ultra_only s markers ms : ep_ok s markers ms ->
  (forall m, In m (UltraHdBluray s markers ms) ->
     In m ms \/ (exists x, In x ms /\ is_uhd x /\ m = set_private x) \/ (exists x, In x ms /\ is_bluray x /\ m = as_ultra x)) /\
  (forall x, In x ms -> In x (UltraHdBluray s markers ms) \/ (is_uhd x /\ In (set_private x) (UltraHdBluray s markers ms)) \/
     (is_bluray x /\ exists m, In m (UltraHdBluray s markers ms) /\ mkey m = mkey (as_ultra x))).
Proof.
  intros W. unfold UltraHdBluray. pose proof (parts_inv s markers ms W) as V. destruct (fold_left (uhd_part s) (parts_of markers) (ms, ([], []))) as [ms' [rem add]]. destruct V as ((h & H & E) & R & A). cbn [fst snd] in *.
  assert (D : distinct ms') by (subst ms'; apply hide_map_distinct, W).
  assert (N : forall x, In x ms -> is_bluray x -> hide_some h x = x).
  { intros x X B. unfold hide_some. destruct (h x) eqn:F; [|reflexivity]. apply (H x X) in F. destruct B as (_ & B & _), F as (_ & F & _). rewrite F in B. discriminate. }
  assert (Rin : forall x, In x rem -> In x ms') by (intros x Hx; destruct (R x Hx) as [X B]; rewrite E; apply in_map_iff; exists x; split; [apply N; auto|exact X]).
  unfold apply_change. cbn [fst snd]. split.
  - intros m Hm. apply apply_In in Hm; [|exact D|exact Rin]. destruct Hm as [[Hm _]|Hm].
    + rewrite E in Hm. apply in_map_iff in Hm as (x & <- & X). unfold hide_some. destruct (h x) eqn:F; [right; left; exists x; auto|left; exact X].
    + rewrite A in Hm. apply in_map_iff in Hm as (x & <- & X). destruct (R x X). right; right. exists x; auto.
  - intros x X. destruct (append_all_app add (remove_all rem ms')) as (new & En & _).
    destruct (mmem x rem) eqn:Q.
    + apply mmem_iff in Q as (y & Y & K). destruct (R y Y) as [Y1 Y2]. assert (y = x) by (apply (distinct_inj ms); auto; apply W). subst y. right; right. split; [exact Y2|].
      assert (G : exists m, In m (append_all add (remove_all rem ms')) /\ mkey m = mkey (as_ultra x)); [|destruct G as (m & G1 & G2); exists m; auto].
      apply append_all_keys. exists (as_ultra x). split; [right; rewrite A; apply in_map; exact Y|reflexivity].
    + assert (G : In (hide_some h x) (append_all add (remove_all rem ms'))).
      { rewrite En. apply in_app_iff. left. apply remove_all_In; [exact D|exact Rin|]. split; [rewrite E; apply in_map; exact X|]. intros Hr. apply (proj1 (mmem_false x rem) Q _ Hr), hide_key. }
      unfold hide_some in G. destruct (h x) eqn:F; [right; left; split; [apply H; auto|exact G]|left; exact G].
Qed.
Print Assumptions C75_ultra_only.

(** ** the decision, for a name with one Blu-ray source *)
Lemma no_bluray s markers ms st part : ep_ok s markers ms -> In part markers -> uhd_inv ms st -> (forall x, In x ms -> is_bluray x -> ~ touches part x) -> uhd_part s st part = st.
Proof.
  intros W P V N. unfold uhd_part. assert (Wst : ep_ok s markers (fst st)) by (destruct V as ((h & _ & E) & _); rewrite E; apply hide_ok, W).
  destruct (in_part_of s (fst st) part blu_ray) as [|x l] eqn:E; [reflexivity|]. exfalso.
  assert (X : In x (in_part_of s (fst st) part blu_ray)) by (rewrite E; left; reflexivity). apply (part_In s markers) in X as (A1 & A2 & A3); auto. apply bluray_iff in A3.
  destruct V as ((h & H & Es) & _). rewrite Es in A1. apply in_map_iff in A1 as (y & Ey & Y). unfold hide_some in Ey. destruct (h y) eqn:F; [|subst; apply (N x Y); auto].
  apply (H y Y) in F. destruct A3 as (_ & B & _), F as (_ & F & _). subst x. cbn [m_name set_private] in B. rewrite F in B. discriminate.
Qed.
Lemma only_one (x : mt) l : NoDup l -> In x l -> (forall y, In y l -> y = x) -> l = [x].
Proof.
  intros N X H. destruct l as [|a [|b l]]; [destruct X|rewrite (H a (or_introl eq_refl)); reflexivity|].
  inversion N as [|? ? N1 N2]. destruct N1. left. rewrite (H a (or_introl eq_refl)), (H b (or_intror (or_introl eq_refl))). reflexivity.
Qed.
Lemma range_NoDup s ms a b p : distinct ms -> NoDup (range s ms a b p).
Proof. intros D. unfold range. repeat apply NoDup_filter. apply distinct_NoDup. apply distinct_msorted, D. Qed.
Theorem C75_ultra s markers ms part x : ep_ok s markers ms -> NoDup markers -> path_part markers part -> In x ms -> is_bluray x -> touches part x ->
  (forall y, In y ms -> is_bluray y -> y = x) -> (forall q, path_part markers q -> touches q x -> q = part) ->
  (((exists o, goes_with s ms part x o) \/ in_2160p ms part) ->
     (forall m, In m (UltraHdBluray s markers ms) -> mkey m <> mkey x) /\ (exists m, In m (UltraHdBluray s markers ms) /\ mkey m = mkey (as_ultra x)) /\
     ((exists o, goes_with s ms part x o) -> exists o, goes_with s ms part x o /\ forall m, In m (UltraHdBluray s markers ms) -> mkey m = mkey o -> m_private m = true)) /\
  (~ ((exists o, goes_with s ms part x o) \/ in_2160p ms part) -> UltraHdBluray s markers ms = ms).
Proof.
  intros W ND P X B T U Q. assert (I0 : uhd_inv ms (ms, ([], []))).
  { split; [exists (fun _ => false); split; [discriminate|cbn [fst]; symmetry; apply map_id]|]. cbn [fst snd map In]. split; [tauto|reflexivity]. }
  assert (S1 : uhd_inv ms (uhd_step s part (ms, ([], [])) x)) by (apply (step_inv s markers); auto; apply P).
  assert (Skip : forall l st, (forall q, In q l -> path_part markers q /\ q <> part) -> uhd_inv ms st -> fold_left (uhd_part s) l st = st).
  { induction l as [|q l IH]; intros st Hl V; cbn [fold_left]; [reflexivity|]. destruct (Hl q (or_introl eq_refl)) as [Pq Nq].
    rewrite (no_bluray s markers ms st q W (proj1 Pq) V).
    - apply IH; [intros r Hr; apply Hl; right; exact Hr|exact V].
    - intros y Y Y' T'. rewrite (U y Y Y') in T'. apply Nq, Q; auto. }
  assert (F : fold_left (uhd_part s) (parts_of markers) (ms, ([], [])) = uhd_step s part (ms, ([], [])) x).
  { assert (N : NoDup (parts_of markers)) by (unfold parts_of, named; apply NoDup_filter, ND). pose proof (proj2 (parts_iff markers part) P) as Hin. apply in_split in Hin as (l1 & l2 & E).
    assert (Hs : forall q, In q l1 \/ In q l2 -> path_part markers q /\ q <> part).
    { intros q Hq. split; [apply parts_iff; rewrite E; apply in_app_iff; cbn; tauto|]. rewrite E in N. apply NoDup_remove_2 in N. intros ->. apply N. apply in_app_iff. exact Hq. }
    rewrite E, fold_left_app. rewrite (Skip l1) by (intros; auto). cbn [fold_left].
    assert (O : uhd_part s (ms, ([], [])) part = uhd_step s part (ms, ([], [])) x).
    { unfold uhd_part. cbn [fst]. rewrite (only_one x (in_part_of s ms part blu_ray)); [reflexivity| | |].
      - unfold in_part_of. apply range_NoDup, W.
      - apply (part_In s markers); [exact W|apply P|]. rewrite bluray_iff. auto.
      - intros y Hy. apply (part_In s markers) in Hy as (Y1 & _ & Y2); [|exact W|apply P]. apply U; [exact Y1|apply bluray_iff, Y2]. }
    rewrite O. apply Skip; [intros q Hq; apply Hs; auto|exact S1]. }
  unfold UltraHdBluray. rewrite F. destruct (decision s markers ms part x W (proj1 P) X) as (D1 & D2 & D3). unfold uhd_step in *. cbn [fst snd] in *.
  destruct (uhd_other s ms part x) as [[|] o]; cbn [fst snd] in *; (split; [intros G|intros G]).
  2: destruct G; apply D1; reflexivity.
  2: apply D1 in G; discriminate.
  2: reflexivity.
  cbn [fst snd app] in *. set (ms' := match o with Some y => make_private y ms | None => ms end) in *.
  assert (Dm : distinct ms' /\ In x ms').
  { destruct S1 as ((h & H & Eh) & _ & _). cbn [fst] in Eh. rewrite Eh. split; [apply hide_map_distinct, W|]. apply in_map_iff. exists x. split; [|exact X]. unfold hide_some. destruct (h x) eqn:Fh; [|reflexivity].
    apply (H x X) in Fh. destruct B as (_ & B & _), Fh as (_ & Fh & _). rewrite Fh in B. discriminate. }
  destruct Dm as [Dm Xm]. assert (K : forall m, In m (apply_change ([x], [as_ultra x]) ms') -> (In m ms' /\ m <> x) \/ m = as_ultra x).
  { intros m Hm. unfold apply_change in Hm. cbn [fst snd] in Hm. apply apply_In in Hm; [|exact Dm|intros y [<-|[]]; exact Xm]. destruct Hm as [[Hm N]|[<-|[]]]; [left; split; [exact Hm|intros ->; apply N; left; reflexivity]|right; reflexivity]. }
  split; [|split].
  - intros m Hm E. apply K in Hm as [[Hm N]| ->]; [apply N, (distinct_inj ms'); auto|]. destruct B as (_ & _ & B). assert (EV : m_value (as_ultra x) = m_value x) by (injection E; auto). rewrite B in EV. cbn in EV. discriminate.
  - apply append_all_keys. exists (as_ultra x). split; [right; left; reflexivity|reflexivity].
  - intros Go. destruct (D3 Go) as (o' & Eo & Gw). exists o'. split; [exact Gw|]. intros m Hm E. destruct (D2 o' Eo) as [O1 O2]. apply K in Hm as [[Hm N]| ->].
    + subst ms'. rewrite Eo in Hm. unfold make_private in Hm. apply in_map_iff in Hm as (y & <- & Y). destruct (mt_eqb o' y) eqn:Ey; [reflexivity|]. exfalso.
      assert (mt_eqb o' y = true) by (apply mt_eqb_eq; symmetry; exact E). congruence.
    + exfalso. destruct O2 as (_ & O2 & _), B as (_ & B & _). assert (EN : m_name (as_ultra x) = m_name o') by (injection E; auto). cbn [m_name as_ultra set_value] in EN. rewrite B, O2 in EN. discriminate.
Qed.
Print Assumptions C75_ultra.
Definition bd_ex : mt := simple 6 8 (lit "source") (MvStr (lit "Blu-ray")) [].
Definition uhd_ex : mt := simple 2 5 (lit "other") (MvStr (lit "Ultra HD")) [].
Example C75_ultra_ex : UltraHdBluray (lit "a UHD BD") [path_ex 8] [uhd_ex; bd_ex] = [set_private uhd_ex; as_ultra bd_ex] /\
  UltraHdBluray (lit "a UHDxBD") [path_ex 8] [uhd_ex; bd_ex] = [uhd_ex; bd_ex].
Proof. split; reflexivity. Qed.
Example C75_ultra_hyps : ep_ok (lit "a UHD BD") [path_ex 8] [uhd_ex; bd_ex] /\ is_bluray bd_ex /\ touches (path_ex 8) bd_ex /\ goes_with (lit "a UHD BD") [uhd_ex; bd_ex] (path_ex 8) bd_ex uhd_ex.
Proof.
  split; [ep_ok_t|]. split; [repeat split|]. split; [split; cbn; lia|]. left. split.
  - split; [repeat split; cbn; auto; lia|]. intros y [<-|[<-|[]]] H1 H2 H3; [unfold pos_le; cbn; lia|]. cbn in H1. lia.
  - split.
    + intros j c Hj Hc Hu. cbn in Hj. assert (j = 5) by lia. subst j. injection Hc as <-. reflexivity.
    + intros y [<-|[<-|[]]] H1 H2 H3; cbn in H2, H3; lia.
Qed.
(** the limit: with 2160p in the component, an Ultra HD match that does not go with the source disappears all the same *)
Theorem C75_ultra_limit : exists s markers ms x o, In x ms /\ is_bluray x /\ In o ms /\ is_uhd o /\ (forall part, path_part markers part -> ~ goes_with s ms part x o) /\
  In (set_private o) (UltraHdBluray s markers ms) /\ ~ In o (UltraHdBluray s markers ms).
Proof.
  set (o := simple 11 14 (lit "other") (MvStr (lit "Ultra HD")) []). set (x := simple 6 8 (lit "source") (MvStr (lit "Blu-ray")) []). set (z := simple 0 5 (lit "screen_size") (MvStr (lit "2160p")) []).
  exists (lit "2160p BD a UHD"), [path_ex 14], [z; x; o], x, o. split; [cbn; auto|]. split; [repeat split|]. split; [cbn; auto|]. split; [repeat split|]. split.
  - intros part [[<-|[]] _] [[[(_ & H & _) _] _]|[_ [H _]]]; [cbn in H; lia|]. specialize (H 9 97%N). cbn in H. assert (97%N = 97%N -> False) as C; [|apply C; reflexivity]. intros _.
    assert (is_sep 97 = true); [|discriminate]. apply H; [lia|reflexivity|]. intros (y & [<-|[<-|[<-|[]]]] & C1 & C2); cbn in C1, C2; lia.
  - split; [vm_compute; auto|]. vm_compute. intuition discriminate.
Qed.
Print Assumptions C75_ultra_limit.
