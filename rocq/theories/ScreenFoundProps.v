(** C91: screen sizes, resolutions and frame rates are found, and nothing else. *)
From Verif Require Import Py PyFacts Text TextFacts WordsProofs Regex CrcProofs DateProofs RegexFacts Quantity Episodes Rebulk Patterns PatternsProps Keyword KeywordProofs KeywordProps KeywordTable ScreenPatterns ScreenPatternsProps ScreenFound RuleSpec ScreenSize ScreenSizeProps.
From Coq Require Import Arith Permutation ZifyBool ZifyNat ZifyN.
Local Open Scope nat_scope.

(** ** C91: screen sizes are found *)
Lemma word_matches_spec s w name value tags : w <> [] -> (forall c, In c (lower w) -> ~ In c seps) -> exists ms, string_matches s [w] name value tags seps_surround = Ok ms /\
  forall m, In m ms <-> exists a b, a <= b <= List.length s /\ lower (slice a b s) = lower w /\ alone s a b /\ m = simple a b name (value (slice a b s)) tags.
Proof.
  intros Nw Ns. unfold string_matches, mapM, find_all.
  assert (Nw' : lower w <> []) by (intros E; apply Nw; destruct w; [reflexivity|discriminate]).
  assert (Occ : forall a, occurs (lower w) (lower s) a <-> lower (slice a (a + List.length w) s) = lower w /\ a + List.length w <= List.length s).
  { intros a. rewrite (occurs_iff _ _ _ Nw'), !lower_length. replace (slice a (a + List.length w) (lower s)) with (lower (slice a (a + List.length w) s)); [reflexivity|]. unfold slice, lower. rewrite skipn_map, firstn_map. reflexivity. }
  destruct (find_all_loop_spec (lower w) (lower s) Nw' (S (S (List.length (lower s)))) 0 ltac:(lia) ltac:(lia)) as (l & E & F1 & _ & F3). rewrite E. cbn [bind]. eexists. split; [reflexivity|]. cbn [List.concat]. rewrite app_nil_r. intros m. rewrite filter_In, in_map_iff. split.
  - intros [(a & <- & Ha) V]. apply seps_alone in V. cbn [simple m_start m_end] in V. rewrite Forall_forall in F1. destruct (F1 a Ha) as [_ O]. apply Occ in O as [O L]. exists a, (a + List.length w). split; [lia|]. auto.
  - intros (a & b & L & Ew & Al & ->). assert (Lw : b = a + List.length w) by (apply (f_equal (@List.length N)) in Ew; rewrite !lower_length, slice_len in Ew by lia; lia). subst b.
    split; [|apply seps_alone; exact Al]. exists a. split; [reflexivity|]. assert (Oa : occurs (lower w) (lower s) a) by (apply Occ; split; [exact Ew|apply L]). destruct (F3 a ltac:(lia) Oa) as (i & Hi & Li). rewrite lower_length in Li.
    destruct (Nat.eq_dec i a) as [->|N]; [exact Hi|exfalso]. rewrite Forall_forall in F1. destruct (F1 i Hi) as [_ O]. apply Occ in O as [O Lo]. destruct Al as [A _].
    destruct (nth_error s (a - 1)) as [c|] eqn:Ec; [|apply nth_error_None in Ec; lia]. specialize (A c ltac:(lia) eq_refl).
    apply (Ns (to_lower c)).
    + rewrite <- O. unfold lower. apply in_map. apply (nth_in_slice s i (i + List.length w) (a - 1)); [lia|exact Ec].
    + replace (to_lower c) with c; [exact A|]. symmetry. clear - A. apply (proj1 (Forall_forall (fun c => to_lower c = c) seps)) in A; [exact A|]. repeat constructor.
Qed.
Lemma size_kids s k a b c : (kre_groups k = map (fun g => (fst g, lit (snd g))) screen_names \/ (kre_groups k = map (fun g => (fst g, lit (snd g))) (firstn 3 screen_names) /\ group 4 c = None)) ->
  rx_parent (plain_rx "screen_size" MvStr k) s a b c = size_match s a b (g_kids s screen_names c).
Proof.
  intros H. unfold rx_parent, size_match, rx_kids, g_kids. cbn [plain_rx rx_name rx_children rx_value rx_tags rx_names]. f_equal. destruct H as [->|[-> G]].
  - reflexivity.
  - cbn [map screen_names firstn flat_map fst snd]. rewrite G. reflexivity.
Qed.
Lemma caps_4 w h sc : group 4 (caps_of w h sc None) = None.
Proof. destruct w, h, sc; reflexivity. Qed.
(** the default sets, in any order *)
Definition any_order (i p r : list kre) : Prop := Permutation default_interlaced i /\ Permutation default_progressive p /\ Permutation default_rates r.
Lemma screen_ok s i p r : any_order i p r -> exists fours, screen_matches i p r s =
    Ok (flat_map (fun p => rx_matches p s) (size_rxs default_interlaced default_progressive default_rates) ++ fours ++ rx_matches (plain_rx "screen_size" MvStr resolution_kre) s ++ rx_matches (plain_rx "frame_rate" (quantity_of_text FrameRate) (fps_kre default_rates)) s) /\
  forall m, In m fours <-> exists a b, a <= b <= List.length s /\ lower (slice a b s) = lit "4k" /\ alone s a b /\ m = simple a b (lit "screen_size") (MvStr (lit "2160p")) [].
Proof.
  intros (Pi & Pp & Pr). rewrite (C91_default_order i p r s Pi Pp Pr). unfold screen_matches.
  destruct (word_matches_spec s (lit "4k") (lit "screen_size") (fun _ => MvStr (lit "2160p")) []) as (ms & E & H); [discriminate|intros c [<-|[<-|[]]]; cbv; intuition discriminate|].
  rewrite E. cbn [bind]. exists ms. split; [reflexivity|]. exact H.
Qed.
Lemma size_matches s m : In m (flat_map (fun p => rx_matches p s) (size_rxs default_interlaced default_progressive default_rates)) <->
  exists k, In k [k_i; k_p; k_hd; k_bare] /\ In m (rx_matches (plain_rx "screen_size" MvStr k) s).
Proof.
  unfold size_rxs. rewrite in_flat_map. split.
  - intros (x & Hx & H). apply in_map_iff in Hx as (k & <- & Hk). eauto.
  - intros (k & Hk & H). exists (plain_rx "screen_size" MvStr k). split; [apply in_map, Hk|exact H].
Qed.
Lemma size_found s k a b c : checked k = true -> a <= List.length s -> M s (kre_re k) a [] b c -> alone s a b -> clear_before s a -> clear_after s b ->
  In (rx_parent (plain_rx "screen_size" MvStr k) s a b c) (rx_matches (plain_rx "screen_size" MvStr k) s).
Proof. intros Ck La HM Al C1 C2. apply plain_In; [|exact Al]. destruct (checked_parts k Ck) as (S1 & S2 & S3 & S4). apply screen_exact; assumption. Qed.
Lemma no_gi : kre_groups (or_kre default_interlaced) = []. Proof. vm_compute. reflexivity. Qed.
Lemma no_gp : kre_groups (or_kre default_progressive) = []. Proof. vm_compute. reflexivity. Qed.
Lemma groups_4 k : In k [k_i; k_p] -> kre_groups k = map (fun g => (fst g, lit (snd g))) screen_names.
Proof. intros [<-|[<-|[]]]; vm_compute; reflexivity. Qed.
Lemma groups_3 k : In k [k_hd; k_bare] -> kre_groups k = map (fun g => (fst g, lit (snd g))) (firstn 3 screen_names).
Proof. intros [<-|[<-|[]]]; vm_compute; reflexivity. Qed.
(** the kids of the parts *)
Lemma height_kids hs s m e k : height_part hs s m e k -> k = [piece s "height" m e].
Proof. intros (_ & _ & H). exact H. Qed.
Lemma opt_width s a m k : width_part s a m k -> exists w, k = opt_kid s "width" w.
Proof. intros [[_ ->]|(q & c & _ & _ & _ & _ & _ & _ & ->)]; [exists None; reflexivity|exists (Some (a, q)); reflexivity]. Qed.
Lemma opt_scan ls s e f k : scan_part ls s e f k \/ nothing e f k -> exists w, k = opt_kid s "scan_type" w.
Proof. intros [(x & _ & _ & _ & ->)|[_ ->]]; [exists (Some (e, f)); reflexivity|exists None; reflexivity]. Qed.
Lemma opt_rate s f b k : rate_part s f b k \/ nothing f b k -> exists w, k = opt_kid s "frame_rate" w.
Proof. intros [(_ & _ & ->)|[_ ->]]; [exists (Some (f, b)); reflexivity|exists None; reflexivity]. Qed.
Lemma size_M s a b kids : size s a b kids -> a <= List.length s -> exists k c, In k [k_i; k_p; k_hd; k_bare] /\ M s (kre_re k) a [] b c /\ rx_parent (plain_rx "screen_size" MvStr k) s a b c = size_match s a b kids.
Proof.
  intros H L.
  assert (R : forall h hs l ls m e f k1 k2 k3 k4, (forall t after, spells (or_kre h) t after <-> In t (map lit hs)) -> kre_groups (or_kre h) = [] ->
    (forall t after, spells (word_kre l) t after <-> exists x, t = [x] /\ In x (lit ls)) -> kre_groups (word_kre l) = [] ->
    width_part s a m k1 -> height_part hs s m e k2 -> scan_part ls s e f k3 -> rate_part s f b k4 \/ nothing f b k4 ->
    kre_groups (rated_kre h default_rates l) = map (fun g => (fst g, lit (snd g))) screen_names ->
    exists c, M s (kre_re (rated_kre h default_rates l)) a [] b c /\ rx_parent (plain_rx "screen_size" MvStr (rated_kre h default_rates l)) s a b c = size_match s a b (k1 ++ k2 ++ k3 ++ k4)).
  { intros h hs l ls m e f k1 k2 k3 k4 H1 H2 H3 H4 P1 P2 P3 P4 G. destruct (opt_width _ _ _ _ P1) as [w Ew], (opt_scan ls s e f k3 (or_introl P3)) as [sc Es], (opt_rate _ _ _ _ P4) as [fr Ef].
    exists (caps_of w (m, e) sc fr). split.
    - apply (rated_iff s h hs l ls a b _ H1 H2 H3 H4 L). exists m, e, f, k1, k2, k3, k4. repeat (split; [assumption|]). exists w, sc, fr. auto.
    - rewrite size_kids by (left; exact G). rewrite g_kids_caps. rewrite Ew, Es, Ef, (height_kids _ _ _ _ _ P2). reflexivity. }
  destruct H as [m e f k1 k2 k3 k4 P1 P2 P3 P4|m e f k1 k2 k3 k4 P1 P2 P3 P4|m e f k1 k2 k3 P1 P2 P3 P4|m e f k1 k2 k3 P1 P2 P3 P4].
  - destruct (R default_interlaced interlaced_heights "i"%string "iI"%string m e f k1 k2 k3 k4 interlaced_spell no_gi i_spells eq_refl P1 P2 P3 P4) as (c & HM & E); [vm_compute; reflexivity|]. exists k_i, c. split; [cbn [In]; auto|]. split; [exact HM|exact E].
  - destruct (R default_progressive progressive_heights "p"%string "pP"%string m e f k1 k2 k3 k4 progressive_spell no_gp p_spells eq_refl P1 P2 P3 P4) as (c & HM & E); [vm_compute; reflexivity|]. exists k_p, c. split; [cbn [In]; auto|]. split; [exact HM|exact E].
  - destruct (opt_width _ _ _ _ P1) as [w Ew], (opt_scan _ _ _ _ _ P3) as [sc Es]. exists k_hd, (caps_of w (m, e) sc None). split; [cbn [In]; auto|]. split.
    + apply (hd_iff s a b _ L). exists m, e, f, k1, k2, k3. repeat (split; [assumption|]). exists w, sc. auto.
    + rewrite size_kids by (right; split; [apply groups_3; cbn [In]; auto|apply caps_4]). rewrite g_kids_caps. rewrite Ew, Es, (height_kids _ _ _ _ _ P2). cbn [opt_kid fst snd]. rewrite app_nil_r. reflexivity.
  - destruct (opt_width _ _ _ _ P1) as [w Ew], (opt_scan _ _ _ _ _ P3) as [sc Es]. exists k_bare, (caps_of w (m, e) sc None). split; [cbn [In]; auto|]. split.
    + apply (bare_iff s a b _ L). exists m, e, f, k1, k2, k3. repeat (split; [assumption|]). exists w, sc. auto.
    + rewrite size_kids by (right; split; [apply groups_3; cbn [In]; auto|apply caps_4]). rewrite g_kids_caps. rewrite Ew, Es, (height_kids _ _ _ _ _ P2). cbn [opt_kid fst snd]. rewrite app_nil_r. reflexivity.
Qed.
Lemma M_size s a b c k : In k [k_i; k_p; k_hd; k_bare] -> a <= List.length s -> M s (kre_re k) a [] b c -> exists kids, size s a b kids /\ rx_parent (plain_rx "screen_size" MvStr k) s a b c = size_match s a b kids.
Proof.
  intros Hk L HM. destruct Hk as [<-|[<-|[<-|[<-|[]]]]].
  - apply (rated_iff s default_interlaced interlaced_heights "i" "iI" a b c interlaced_spell no_gi i_spells eq_refl L) in HM as (m & e & f & k1 & k2 & k3 & k4 & P1 & P2 & P3 & P4 & w & sc & fr & -> & Ew & Es & Ef).
    exists (k1 ++ k2 ++ k3 ++ k4). split; [eapply size_i; eassumption|]. rewrite size_kids by (left; apply groups_4; cbn [In]; auto). rewrite g_kids_caps, Ew, Es, Ef, (height_kids _ _ _ _ _ P2). reflexivity.
  - apply (rated_iff s default_progressive progressive_heights "p" "pP" a b c progressive_spell no_gp p_spells eq_refl L) in HM as (m & e & f & k1 & k2 & k3 & k4 & P1 & P2 & P3 & P4 & w & sc & fr & -> & Ew & Es & Ef).
    exists (k1 ++ k2 ++ k3 ++ k4). split; [eapply size_p; eassumption|]. rewrite size_kids by (left; apply groups_4; cbn [In]; auto). rewrite g_kids_caps, Ew, Es, Ef, (height_kids _ _ _ _ _ P2). reflexivity.
  - apply (hd_iff s a b c L) in HM as (m & e & f & k1 & k2 & k3 & P1 & P2 & P3 & P4 & w & sc & -> & Ew & Es).
    exists (k1 ++ k2 ++ k3). split; [eapply size_hd; eassumption|]. rewrite size_kids by (right; split; [apply groups_3; cbn [In]; auto|apply caps_4]). rewrite g_kids_caps, Ew, Es, (height_kids _ _ _ _ _ P2). cbn [opt_kid fst snd]. rewrite app_nil_r. reflexivity.
  - apply (bare_iff s a b c L) in HM as (m & e & f & k1 & k2 & k3 & P1 & P2 & P3 & P4 & w & sc & -> & Ew & Es).
    exists (k1 ++ k2 ++ k3). split; [eapply size_x; eassumption|]. rewrite size_kids by (right; split; [apply groups_3; cbn [In]; auto|apply caps_4]). rewrite g_kids_caps, Ew, Es, (height_kids _ _ _ _ _ P2). cbn [opt_kid fst snd]. rewrite app_nil_r. reflexivity.
Qed.
(** a screen size that stands alone is found, with its width, height, scan type and frame rate, whatever the order of the sets *)
Theorem C91_found s i p r a b kids : any_order i p r -> a <= List.length s -> size s a b kids -> alone s a b -> clear_before s a -> clear_after s b ->
  exists ms, screen_matches i p r s = Ok ms /\ In (size_match s a b kids) ms.
Proof.
  intros O L Sz Al C1 C2. destruct (screen_ok s i p r O) as (fours & E & _). eexists. split; [exact E|]. apply in_or_app. left.
  destruct (size_M s a b kids Sz L) as (k & c & Hk & HM & <-). apply size_matches. exists k. split; [exact Hk|]. apply size_found; try assumption.
  destruct Hk as [<-|[<-|[<-|[<-|[]]]]]; [exact checked_i|exact checked_p|exact checked_hd|exact checked_bare].
Qed.
Print Assumptions C91_found.

(** ** resolutions *)
(** three or four digits, a cross, three or four digits, perhaps with a separator around the cross *)
Definition gap (s : str) (x y : nat) : Prop := y = x \/ (exists c, nth_error s x = Some c /\ In c seps_no_fs /\ y = S x).
Definition resolution (s : str) (a b : nat) (kids : list child) : Prop :=
  exists q p e r c, number (slice a q s) /\ a + 3 <= q <= a + 4 /\ gap s q p /\ nth_error s p = Some c /\ In c (lit "xX*") /\ e = S p /\ gap s e r /\
    number (slice r b s) /\ r + 3 <= b <= r + 4 /\ b <= List.length s /\ kids = [piece s "width" a q; piece s "height" r b].
(** no cross before *)
Definition no_cross (s : str) (a : nat) : Prop := forall k c, k < a -> a <= k + 2 -> nth_error s k = Some c -> ~ In c (lit "xX*").
Lemma isep_iff z : accepts ISep z = true <-> In z seps_no_fs.
Proof. cbn [accepts]. apply cmem_In. Qed.
Lemma gap_M s x c y d : x <= List.length s -> M s (kre_re (KOpt (KItem ISep))) x c y d <-> gap s x y /\ d = c.
Proof.
  intros L. rewrite M_opt_iff. unfold gap. split.
  - intros [H|[-> ->]]; [|auto]. cbn [kre_re] in H. apply M_chr_inv in H as (-> & -> & z & E & A). apply isep_iff in A. split; [right; exists z; auto|reflexivity].
  - intros [[->|(z & E & A & ->)] ->]; [auto|]. left. cbn [kre_re]. econstructor; [exact E|]. apply isep_iff, A.
Qed.
Lemma gap_le s x y : gap s x y -> x <= List.length s -> x <= y <= List.length s.
Proof. intros [->|(c & E & _ & ->)] L; [lia|]. apply nth_error_lt in E. lia. Qed.
Lemma resolution_iff s a b d : a <= List.length s -> M s (kre_re resolution_kre) a [] b d <->
  exists q p r c, number (slice a q s) /\ a + 3 <= q <= a + 4 /\ gap s q p /\ nth_error s p = Some c /\ In c (lit "xX*") /\ gap s (S p) r /\
    number (slice r b s) /\ r + 3 <= b <= r + 4 /\ b <= List.length s /\ d = [(2, (r, b)); (1, (a, q))].
Proof.
  intros L. unfold resolution_kre. rewrite M_seq_iff. split.
  - intros (q & e1 & H1 & H). apply M_group in H1 as (-> & L1 & H1); [|reflexivity|exact L]. apply width_digits_spells in H1 as [H1 L1']. rewrite slice_len in L1' by lia.
    apply M_seq_iff in H as (p & e2 & H2 & H). apply gap_M in H2 as [H2 ->]; [|lia]. pose proof (gap_le _ _ _ H2 ltac:(lia)). apply M_seq_iff in H as (p' & e3 & H3 & H).
    apply M_plain in H3 as (-> & L3 & H3); [|reflexivity|lia]. apply times_spells in H3 as (c & H3 & Hc). assert (R : reads s p p' [c]) by (split; [lia|exact H3]). apply reads_one in R as [-> R].
    apply M_seq_iff in H as (r & e4 & H4 & H). apply gap_M in H4 as [H4 ->]; [|lia]. pose proof (gap_le _ _ _ H4 ltac:(lia)). apply M_group in H as (-> & L5 & H); [|reflexivity|lia]. apply width_digits_spells in H as [H L5']. rewrite slice_len in L5' by lia.
    exists q, p, r, c. split; [exact H1|]. split; [lia|]. split; [exact H2|]. split; [exact R|]. split; [exact Hc|]. split; [exact H4|]. split; [exact H|]. split; [lia|]. split; [lia|reflexivity].
  - intros (q & p & r & c & H1 & L1 & H2 & E & Hc & H4 & H5 & L5 & L6 & ->). pose proof (nth_error_lt _ _ _ E). assert (q <= p) by (destruct H2 as [->|(? & _ & _ & ->)]; lia). pose proof (gap_le _ _ _ H4 ltac:(lia)).
    exists q, [(1, (a, q))]. split; [apply M_group; [reflexivity|exact L|]; split; [reflexivity|]; split; [lia|]; apply width_digits_spells; rewrite slice_len by lia; split; [exact H1|lia]|].
    apply M_seq_iff. exists p, [(1, (a, q))]. split; [apply gap_M; [lia|auto]|]. apply M_seq_iff. exists (S p), [(1, (a, q))]. split.
    + apply M_plain; [reflexivity|lia|]. split; [reflexivity|]. split; [lia|]. apply times_spells. exists c. split; [|exact Hc]. apply (proj2 (reads_one s p (S p) c) (conj eq_refl E)).
    + apply M_seq_iff. exists r, [(1, (a, q))]. split; [apply gap_M; [lia|auto]|]. apply M_group; [reflexivity|lia|]. split; [reflexivity|]. split; [lia|]. apply width_digits_spells. rewrite slice_len by lia. split; [exact H5|lia].
Qed.
(** a finer check: what is longer is tried before *)
Definition item_eq_dec (x y : item) : {x = y} + {x <> y}.
Proof. decide equality; try apply N.eq_dec; apply (list_eq_dec N.eq_dec). Defined.
Fixpoint covers (z x y : list item) : bool :=
  match z, y with
  | [], _ => true
  | i :: z', j :: y' => match x with
      | k :: x' => (if item_eq_dec i j then true else if item_eq_dec i k then true else false) && covers z' x' y'
      | [] => (if item_eq_dec i j then true else false) && covers z' [] y'
      end
  | _ :: _, [] => false
  end.
Lemma covers_ok s z : forall x y i, covers z x y = true -> items_ok s i x = true -> items_ok s i y = true -> items_ok s i z = true.
Proof.
  induction z as [|a z IH]; intros x y i; [reflexivity|]. cbn [covers]. destruct y as [|j y]; [discriminate|]. cbn [items_ok]. destruct x as [|k x].
  - intros H _ Hy. destruct (nth_error s i) as [c|]; [|discriminate]. apply Bool.andb_true_iff in H as [H1 H2], Hy as [Y1 Y2]. destruct (item_eq_dec a j) as [->|]; [|discriminate]. rewrite Y1. cbn [andb]. exact (IH [] y (S i) H2 eq_refl Y2).
  - cbn [items_ok]. intros H Hx Hy. destruct (nth_error s i) as [c|]; [|discriminate]. apply Bool.andb_true_iff in H as [H1 H2], Hy as [Y1 Y2], Hx as [X1 X2].
    assert (accepts a c = true) as -> by (destruct (item_eq_dec a j) as [->|]; [exact Y1|]; destruct (item_eq_dec a k) as [->|]; [exact X1|discriminate]). cbn [andb]. exact (IH x y (S i) H2 X2 Y2).
Qed.
Fixpoint finer (u l : list alt) : bool :=
  match l with
  | [] => true
  | x :: r => forallb (fun y => negb (shorter (al_items x) (al_items y)) || existsb (fun z => match al_conds z with [] => covers (al_items z) (al_items x) (al_items y) | _ => false end) u) r && finer (x :: u) r
  end.
Lemma finer_pair w u x v y : finer w (u ++ x :: v) = true -> In y v -> shorter (al_items x) (al_items y) = true -> exists z, (In z w \/ In z u) /\ al_conds z = [] /\ covers (al_items z) (al_items x) (al_items y) = true.
Proof.
  revert w. induction u as [|t u IH]; intros w H Hy Sh; cbn [app finer] in H; apply Bool.andb_true_iff in H as [H1 H2].
  - rewrite forallb_forall in H1. specialize (H1 y Hy). rewrite Sh in H1. cbn [negb orb] in H1. apply existsb_exists in H1 as (z & Hz & H1). destruct (al_conds z) eqn:Ec; [|discriminate]. exists z. auto.
  - destruct (IH (t :: w) H2 Hy Sh) as (z & [[<-|Hz]|Hz] & E1 & E2); exists z || exists t; cbn [In]; auto.
Qed.
Lemma kre_finer s k a b c : solid k = true -> finer [] (alts k) = true -> unambiguous k = true -> a <= List.length s -> M s (kre_re k) a [] b c ->
  (forall a' b' e, a' < a -> M s (kre_re k) a' [] b' e -> b' <= a) -> (forall b' e, M s (kre_re k) a [] b' e -> b' <= b) -> In (a, b, c) (finditer s (kre_re k)).
Proof.
  intros Hs G U La HM F1 F2. destruct (finditer_complete s (kre_re k) (kre_consumes s k Hs) a b c La HM F1) as (b' & c' & Hf).
  destruct (M_alt_caps s k a b c HM La) as (y & Hy & Oy & Ey & ->). pose proof Oy as Oy'. unfold alt_ok in Oy'. apply Bool.andb_true_iff in Oy' as [Iy _].
  pose proof Hf as Hf'. apply finditer_sound in Hf' as (_ & E & HM'); [|exact (kre_consumes s k Hs)]. pose proof (F2 b' c' HM') as Lb.
  unfold match_at in E. rewrite mtch_alts in E. apply first_some_inv in E as (u & x & v & El & F & Fu). unfold taken in F. destruct (alt_ok s a x) eqn:Ox; [|discriminate]. injection F as Eb' Ec'.
  pose proof Ox as Ox'. unfold alt_ok in Ox'. apply Bool.andb_true_iff in Ox' as [Ix _]. assert (Hx : In x (alts k)) by (rewrite El; apply in_or_app; right; left; reflexivity). destruct (Nat.eq_dec b' b) as [->|Ne].
  - replace (shift a (al_grps y)) with c'; [exact Hf|]. rewrite <- Ec', app_nil_r. f_equal. apply (unambiguous_true k x y U Hx Hy); [lia|]. exact (overlap_true s a _ _ Ix Iy).
  - exfalso. rewrite El in Hy. apply in_app_or in Hy as [Hy|[->|Hy]]; [|lia|].
    + specialize (Fu y Hy). unfold taken in Fu. rewrite Oy in Fu. discriminate.
    + assert (h : shorter (al_items x) (al_items y) = true) by (apply (shorter_true s a); auto; lia). rewrite El in G. destruct (finer_pair [] u x v y G Hy h) as (z & [[]|Hz] & Ez & Cz).
      specialize (Fu z Hz). unfold taken, alt_ok in Fu. rewrite (covers_ok s _ _ _ a Cz Ix Iy), Ez in Fu. discriminate.
Qed.
Lemma resolution_checked : solid resolution_kre = true /\ finer [] (alts resolution_kre) = true /\ unambiguous resolution_kre = true.
Proof. vm_compute. auto. Qed.
Lemma number_nth s a b k c : number (slice a b s) -> a <= k < b -> nth_error s k = Some c -> (48 <= c <= 57)%N.
Proof. intros [_ H] L E. apply H. apply (nth_in_slice s a b k c L E). Qed.
Lemma sep_not_digit c : In c seps -> (48 <= c <= 57)%N -> False.
Proof. intros H. cbv in H. intuition lia. Qed.
Lemma cross_not_digit c : In c (lit "xX*") -> (48 <= c <= 57)%N -> False.
Proof. intros H. cbv in H. intuition lia. Qed.
Lemma incl_seps c : In c seps_no_fs -> In c seps.
Proof. intros H. apply (proj1 (forallb_forall (fun c => cmem c seps) seps_no_fs) eq_refl) in H. apply cmem_In, H. Qed.
Lemma gap_sep c : In c seps_no_fs -> In c seps.
Proof. apply (incl_seps c). Qed.
Theorem C91_resolution s i p r a b kids : any_order i p r -> a <= List.length s -> resolution s a b kids -> alone s a b -> no_cross s a ->
  exists ms, screen_matches i p r s = Ok ms /\ In (size_match s a b kids) ms.
Proof.
  intros O L (q & pp & e & rr & c & H1 & L1 & H2 & E & Hc & -> & H4 & H5 & L5 & L6 & ->) [A B] NC. destruct (screen_ok s i p r O) as (fours & Eo & _). eexists. split; [exact Eo|]. apply in_or_app. right. apply in_or_app. right. apply in_or_app. left.
  assert (HM : M s (kre_re resolution_kre) a [] b [(2, (rr, b)); (1, (a, q))]) by (apply resolution_iff; [exact L|]; exists q, pp, rr, c; auto 15).
  assert (Lq : q <= pp /\ S pp <= rr) by (destruct H2 as [->|(? & _ & _ & ->)], H4 as [->|(? & _ & _ & ->)]; lia).
  assert (Da : exists x, nth_error s a = Some x /\ (48 <= x <= 57)%N) by (destruct (nth_error s a) as [x|] eqn:Ex; [exists x; split; [reflexivity|]; apply (number_nth s a q a x H1); [lia|exact Ex]|apply nth_error_None in Ex; lia]). destruct Da as (da & Da & Ra).
  assert (Hf : In (a, b, [(2, (rr, b)); (1, (a, q))]) (finditer s (kre_re resolution_kre))).
  { destruct resolution_checked as (S1 & S2 & S3). apply kre_finer; try assumption.
    - intros a' b' e' L' HM'. destruct (Nat.le_gt_cases b' a) as [|G]; [assumption|exfalso]. apply resolution_iff in HM' as (q' & p' & r' & c' & N1 & M1 & G1 & E1 & C1 & G2 & N2 & M2 & M3 & _); [|lia].
      destruct (nth_error s (a - 1)) as [d|] eqn:Ed; [|apply nth_error_None in Ed; lia]. pose proof (A d ltac:(lia) eq_refl) as Sd.
      assert (a' <= a - 1 < q' -> False) by (intros Q; apply (sep_not_digit d Sd), (number_nth s a' q' (a - 1) d N1 Q Ed)).
      assert (r' <= a - 1 < b' -> False) by (intros Q; apply (sep_not_digit d Sd), (number_nth s r' b' (a - 1) d N2 Q Ed)).
      assert (a <> p') by (intros ->; rewrite E1 in Da; injection Da as ->; exact (cross_not_digit da C1 Ra)).
      assert (~ (a <= p' + 2 /\ p' < a)) by (intros [Q1 Q2]; exact (NC p' c' Q2 ltac:(lia) E1 C1)).
      destruct G1 as [->|(? & _ & _ & ->)], G2 as [->|(? & _ & _ & ->)]; lia.
    - intros b' e' HM'. apply resolution_iff in HM' as (q' & p' & r' & c' & N1 & M1 & G1 & E1 & C1 & G2 & N2 & M2 & M3 & _); [|exact L].
      (* the digits stop at the same place *)
      assert (Kq : forall q1 p1 q2, number (slice a q1 s) -> a < q1 -> gap s q1 p1 -> (exists c, nth_error s p1 = Some c /\ In c (lit "xX*")) -> number (slice a q2 s) -> q2 <= q1).
      { intros q1 p1 q2 D1 La1 G3 (c3 & E3 & C3) D2. destruct (Nat.le_gt_cases q2 q1) as [|G]; [assumption|exfalso]. destruct G3 as [->|(c4 & E4 & C4 & ->)]; [apply (cross_not_digit c3 C3), (number_nth s a q2 q1 c3 D2 ltac:(lia) E3)|apply (sep_not_digit c4 (gap_sep c4 C4)), (number_nth s a q2 q1 c4 D2 ltac:(lia) E4)]. }
      assert (q' = q) as -> by (pose proof (Kq q pp q' H1 ltac:(lia) H2 (ex_intro _ c (conj E Hc)) N1); pose proof (Kq q' p' q N1 ltac:(lia) G1 (ex_intro _ c' (conj E1 C1)) H1); lia).
      (* the next digits start at the same place *)
      assert (Kr : forall p1 p2 r1 r2 b1 b2 c1 c2, gap s q p1 -> nth_error s p1 = Some c1 -> In c1 (lit "xX*") -> gap s (S p1) r1 -> gap s q p2 -> nth_error s p2 = Some c2 -> In c2 (lit "xX*") -> gap s (S p2) r2 -> number (slice r1 b1 s) -> r1 < b1 -> number (slice r2 b2 s) -> r2 < b2 -> b1 <= List.length s -> r1 < r2 -> False).
      { intros p1 p2 r1 r2 b1 b2 c1 c2 g1 e1 i1 g1' g2 e2 i2 g2' n1 l1 n2 l2 l3 l4. destruct (nth_error s r1) as [x|] eqn:Ex; [|apply nth_error_None in Ex; lia]. assert (Dx : (48 <= x <= 57)%N) by (apply (number_nth s r1 b1 r1 x n1); [lia|exact Ex]).
        assert (Ng : forall y, nth_error s r1 = Some y -> In y seps_no_fs -> False) by (intros y Ey Hy; rewrite Ex in Ey; injection Ey as <-; exact (sep_not_digit x (gap_sep x Hy) Dx)).
        assert (Nc : forall y, nth_error s r1 = Some y -> In y (lit "xX*") -> False) by (intros y Ey Hy; rewrite Ex in Ey; injection Ey as <-; exact (cross_not_digit x Hy Dx)).
        destruct g1 as [->|(x1 & ex1 & hx1 & ->)], g1' as [->|(x2 & ex2 & hx2 & ->)], g2 as [->|(x3 & ex3 & hx3 & ->)], g2' as [->|(x4 & ex4 & hx4 & ->)]; 
          first [exfalso; clear - l4; lia|match goal with H : nth_error s _ = Some ?y, H2 : In ?y _ |- _ => solve [exact (Ng y H H2)|exact (Nc y H H2)] end]. }
      assert (r' = rr) as ->.
      { destruct (Nat.lt_total r' rr) as [Q|[Q|Q]]; [exfalso|exact Q|exfalso].
        - exact (Kr p' pp r' rr b' b c' c G1 E1 C1 G2 H2 E Hc H4 N2 ltac:(lia) H5 ltac:(lia) M3 Q).
        - exact (Kr pp p' rr r' b b' c c' H2 E Hc H4 G1 E1 C1 G2 H5 ltac:(lia) N2 ltac:(lia) L6 Q). }
      destruct (Nat.le_gt_cases b' b) as [|G]; [assumption|exfalso]. destruct (nth_error s b) as [x|] eqn:Ex; [|apply nth_error_None in Ex; lia]. apply (sep_not_digit x (B x eq_refl)), (number_nth s rr b' b x N2); [lia|exact Ex]. }
  replace (size_match s a b [piece s "width" a q; piece s "height" rr b]) with (rx_parent (plain_rx "screen_size" MvStr resolution_kre) s a b [(2, (rr, b)); (1, (a, q))]) by reflexivity.
  apply plain_In; [exact Hf|split; assumption].
Qed.
Print Assumptions C91_resolution.

(** ** [4k] and the frame rates *)
Theorem C91_4k s i p r a b : any_order i p r -> a <= b <= List.length s -> lower (slice a b s) = lit "4k" -> alone s a b ->
  exists ms, screen_matches i p r s = Ok ms /\ In (simple a b (lit "screen_size") (MvStr (lit "2160p")) []) ms.
Proof. intros O L E Al. destruct (screen_ok s i p r O) as (fours & Eo & F). eexists. split; [exact Eo|]. apply in_or_app. right. apply in_or_app. left. apply F. exists a, b. auto. Qed.
Print Assumptions C91_4k.
(** a frame rate, a separator or none, and the unit *)
Definition rate_text (s : str) (a b : nat) (q : Q) : Prop :=
  exists t p w, reads s a b (t ++ p ++ w) /\ In t rate_texts /\ amount t q /\ maybe_sep p /\ (lower w = lit "p" \/ lower w = lit "fps").
Fixpoint digits_of (t : str) : nat := match t with c :: r => if is_digit c then S (digits_of r) else 0 | [] => 0 end.
Lemma rate_amount t : In t rate_texts -> exists q, amount t q.
Proof.
  intros H.
  assert (Q : forallb (fun t => let k := digits_of t in forallb is_digit (firstn k t) && negb (str_eqb (firstn k t) []) &&
    match skipn k t with [] => true | c :: e => N.eqb c 46 && forallb is_digit e && negb (str_eqb e []) end) rate_texts = true) by (vm_compute; reflexivity).
  rewrite forallb_forall in Q. specialize (Q t H). cbv zeta beta in Q. rewrite !Bool.andb_true_iff in Q. destruct Q as [[Q1 Q2] Q3].
  assert (Nm : forall d, forallb is_digit d = true -> negb (str_eqb d []) = true -> number d).
  { intros d D1 D2. split; [intros ->; discriminate|]. intros c Hc. rewrite forallb_forall in D1. specialize (D1 c Hc). unfold is_digit in D1. lia. }
  rewrite <- (firstn_skipn (digits_of t) t). destruct (skipn (digits_of t) t) as [|c e].
  - rewrite app_nil_r. eexists. apply PatternsProps.whole; auto.
  - rewrite !Bool.andb_true_iff in Q3. destruct Q3 as [[Q3 Q4] Q5]. apply N.eqb_eq in Q3 as ->. eexists. apply fraction; auto.
Qed.
Lemma fps_iff s a b : a <= List.length s -> (exists d, M s (kre_re (fps_kre default_rates)) a [] b d) <-> exists t p w, reads s a b (t ++ p ++ w) /\ In t rate_texts /\ maybe_sep p /\ (lower w = lit "p" \/ lower w = lit "fps").
Proof.
  intros L. rewrite (M_spells s _ a [] b L). unfold fps_kre, group_kre. cbn [spells]. unfold word_kre. split.
  - intros (Lb & t & u & E & Ht & p & w & -> & Hp & Hw). apply rates_spell in Ht. rewrite !text_spells in Hw. exists t, p, w. split; [split; [exact Lb|exact E]|]. split; [exact Ht|]. split; [|exact Hw].
    destruct Hp as [(c & -> & A)| -> ]; [|left; reflexivity]. right. apply isep_iff, cmem_In, no_fs_iff in A. eauto.
  - intros (t & p & w & [Lb E] & Ht & Hp & Hw). split; [exact Lb|]. exists t, (p ++ w). split; [exact E|]. split; [apply rates_spell, Ht|]. exists p, w. split; [reflexivity|]. split; [|rewrite !text_spells; exact Hw].
    destruct Hp as [->|(c & -> & A)]; [right; reflexivity|left; exists c; split; [reflexivity|apply isep_iff, cmem_In, no_fs_iff, A]].
Qed.

Lemma fps_checked : kre_ok (fps_kre default_rates) = true.
Proof. vm_cast_no_check (eq_refl true). Qed.
Lemma unit_no_digit p w : maybe_sep p -> lower w = lit "p" \/ lower w = lit "fps" -> p ++ w <> [] /\ forall c, In c (p ++ w) -> is_digit c = false.
Proof.
  intros Hp Hw. assert (Q : forall l, lower w = l -> forallb (fun c => negb (is_digit c)) l = true -> forall c, In c w -> is_digit c = false).
  { intros l E F c Hc. rewrite forallb_forall in F. assert (h : In (to_lower c) l) by (rewrite <- E; unfold lower; apply in_map, Hc). specialize (F _ h). unfold to_lower, is_upper, is_digit in *. destruct ((65 <=? c)%N && (c <=? 90)%N) eqn:Ec; lia. }
  split.
  - intros E. apply app_eq_nil in E as [_ ->]. destruct Hw; discriminate.
  - intros c Hc. apply in_app_or in Hc as [Hc|Hc]; [|destruct Hw as [Hw|Hw]; exact (Q _ Hw eq_refl c Hc)].
    destruct Hp as [->|(x & -> & Hx & _)]; [destruct Hc|]. destruct Hc as [->|[]]. apply sep_nodigit, Hx.
Qed.
(** a frame rate standing alone is reported with its value, and no other frame rate is *)
Theorem C91_frame_rate s i p r : any_order i p r -> exists ms, screen_matches i p r s = Ok ms /\
  forall a b v, shows ms a b (lit "frame_rate") v <-> exists q, rate_text s a b q /\ alone s a b /\ v = MvQuant q (lit "fps").
Proof.
  intros O. destruct (screen_ok s i p r O) as (fours & Eo & F). eexists. split; [exact Eo|]. intros a b v.
  assert (Val : forall t pp w q, In t rate_texts -> amount t q -> maybe_sep pp -> lower w = lit "p" \/ lower w = lit "fps" -> quantity_of_text FrameRate (t ++ pp ++ w) = MvQuant q (lit "fps")).
  { intros t pp w q Ht A Hp Hw. destruct (unit_no_digit pp w Hp Hw) as [N1 N2]. apply amount_value; [exact A|exact N1|exact N2|reflexivity]. }
  split.
  - intros (m & Hm & <- & <- & Hn & <- & _). apply in_app_or in Hm as [Hm|Hm].
    { apply size_matches in Hm as (k & Hk & Hm). apply plain_inv in Hm as (a & b & c & _ & _ & _ & _ & ->); [discriminate Hn|]. destruct Hk as [<-|[<-|[<-|[<-|[]]]]]; vm_compute; reflexivity. }
    apply in_app_or in Hm as [Hm|Hm]; [apply F in Hm as (a & b & _ & _ & _ & ->); discriminate Hn|]. apply in_app_or in Hm as [Hm|Hm].
    { apply plain_inv in Hm as (a & b & c & _ & _ & _ & _ & ->); [discriminate Hn|vm_compute; reflexivity]. }
    apply plain_inv in Hm as (a & b & c & _ & L & HM & Al & ->); [|exact (proj1 (kre_ok_parts _ fps_checked))].
    destruct (proj1 (fps_iff s a b ltac:(lia)) (ex_intro _ c HM)) as (t & pp & w & R & Ht & Hp & Hw). destruct (rate_amount t Ht) as [q A]. exists q. cbn [rx_parent plain_rx m_start m_end m_value rx_children rx_value rx_name]. split; [exists t, pp, w; auto|]. split; [exact Al|].
    destruct R as [_ ->]. apply Val; assumption.
  - intros (q & (t & pp & w & R & Ht & A & Hp & Hw) & Al & ->). assert (L : a <= List.length s) by (destruct R; lia).
    destruct (proj2 (fps_iff s a b L)) as [d HM]; [exists t, pp, w; auto|]. destruct (kre_found s (fps_kre default_rates) (proj1 (kre_ok_parts _ fps_checked)) a b d fps_checked Al L HM) as [c Hc].
    exists (rx_parent (plain_rx "frame_rate" (quantity_of_text FrameRate) (fps_kre default_rates)) s a b c). split.
    + do 3 (apply in_or_app; right). unfold rx_matches. apply in_flat_map. exists (a, b, c). split; [exact Hc|]. unfold rx_one. cbn [plain_rx rx_children rx_validate_all rx_valid rx_private_parent negb orb andb].
      replace (seps_surround s _) with true; [left; reflexivity|]. symmetry. apply seps_alone. exact Al.
    + cbn [rx_parent plain_rx m_start m_end m_value m_name m_private rx_children rx_value rx_name]. repeat (split; [reflexivity|]). split; [|reflexivity]. destruct R as [_ ->]. apply Val; assumption.
Qed.
Print Assumptions C91_frame_rate.
(** no screen size but these *)
Theorem C91_only s i p r ms m : any_order i p r -> screen_matches i p r s = Ok ms -> In m ms -> m_name m = lit "screen_size" ->
  alone s (m_start m) (m_end m) /\
  ((exists kids, (size s (m_start m) (m_end m) kids \/ resolution s (m_start m) (m_end m) kids) /\ m = size_match s (m_start m) (m_end m) kids) \/
   (lower (slice (m_start m) (m_end m) s) = lit "4k" /\ m = simple (m_start m) (m_end m) (lit "screen_size") (MvStr (lit "2160p")) [])).
Proof.
  intros O E Hm Hn. destruct (screen_ok s i p r O) as (fours & Eo & F). rewrite Eo in E. injection E as <-. apply in_app_or in Hm as [Hm|Hm].
  { apply size_matches in Hm as (k & Hk & Hm). apply plain_inv in Hm as (a & b & c & _ & L & HM & Al & ->); [|destruct Hk as [<-|[<-|[<-|[<-|[]]]]]; vm_compute; reflexivity].
    destruct (M_size s a b c k Hk ltac:(lia) HM) as (kids & Sz & Ek). rewrite Ek. split; [exact Al|]. left. exists kids. split; [left; exact Sz|reflexivity]. }
  apply in_app_or in Hm as [Hm|Hm]; [apply F in Hm as (a & b & L & E & Al & ->); split; [exact Al|right; split; [exact E|reflexivity]]|]. apply in_app_or in Hm as [Hm|Hm].
  - apply plain_inv in Hm as (a & b & c & _ & L & HM & Al & ->); [|vm_compute; reflexivity]. split; [exact Al|]. left. apply resolution_iff in HM as (q & pp & rr & x & H1 & H2 & H3 & H4 & H5 & H6 & H7 & H8 & H9 & ->); [|lia].
    exists [piece s "width" a q; piece s "height" rr b]. split; [right; exists q, pp, (S pp), rr, x; auto 15|reflexivity].
  - apply plain_inv in Hm as (a & b & c & _ & _ & _ & _ & ->); [discriminate Hn|exact (proj1 (kre_ok_parts _ fps_checked))].
Qed.
Print Assumptions C91_only.

(** ** Examples and limits *)
Definition default_order : any_order default_interlaced default_progressive default_rates := conj (Permutation_refl _) (conj (Permutation_refl _) (Permutation_refl _)).
Definition summary (ms : res (list mt)) : list (nat * nat * list (str * str)) :=
  match ms with Ok l => map (fun m => (m_start m, m_end m, map (fun c => (c_name c, match c_value c with MvStr t => t | _ => [] end)) (m_children m))) l | Err _ => [] end.
Example C91_example : summary (screen_matches default_interlaced default_progressive default_rates (lit "A.1920x1080p23.976.720i")) =
  [(2, 18, [(lit "width", lit "1920"); (lit "height", lit "1080"); (lit "scan_type", lit "p"); (lit "frame_rate", lit "23.976")])].
Proof. vm_compute. reflexivity. Qed.
Example C91_found_example : let s := lit "A.1080p24.mkv" in exists kids, size s 2 9 kids /\ alone s 2 9 /\ clear_before s 2 /\ clear_after s 9.
Proof.
  cbv zeta. eexists. split; [|split; [|split]].
  - eapply (size_p _ 2 9 2 6 7 []); [left; split; reflexivity| | |left].
    + split; [vm_compute; tauto|split; [vm_compute; lia|reflexivity]].
    + exists 112%N. split; [reflexivity|]. split; [left; reflexivity|]. split; reflexivity.
    + split; [vm_compute; tauto|split; [vm_compute; lia|reflexivity]].
  - split; [intros c _ H; vm_compute in H; injection H as <-; vm_compute; tauto|intros c H; vm_compute in H; injection H as <-; vm_compute; tauto].
  - intros c _ H. vm_compute in H. injection H as <-. split; [discriminate|]. intros _ (r & [E|E]); vm_compute in E; discriminate.
  - intros c H. vm_compute in H. injection H as <-. split; [discriminate|]. intros _ (r & [E|E]); vm_compute in E; discriminate.
Qed.
(** the decimals of a frame rate can hide a width; a cross can hide a resolution *)
Theorem C91_limit :
  map fst (summary (screen_matches default_interlaced default_progressive default_rates (lit "720p23.976x720p24"))) = [] /\
  map fst (summary (screen_matches default_interlaced default_progressive default_rates (lit "720x 1920x800"))) = [(0, 4)].
Proof. vm_compute. auto. Qed.
(** with sets of which one text starts another, the order matters *)
Theorem C91_order_limit : let rates := kres ["12"; "120"]%string in
  summary (screen_matches (kres ["480"]%string) (kres ["720"]%string) rates (lit "720p120")) <> summary (screen_matches (kres ["480"]%string) (kres ["720"]%string) (rev rates) (lit "720p120")).
Proof. vm_compute. discriminate. Qed.

(** ** what C38 asks of the matches holds of these: the parts are named once, and the numbers are numbers *)
Lemma width_kids s a m k : width_part s a m k -> k = [] \/ exists q, k = [piece s "width" a q] /\ number (slice a q s).
Proof. intros [[_ ->]|(q & c & N & _ & _ & _ & _ & _ & ->)]; [auto|right; eauto]. Qed.
Lemma scan_kids ls s e f k : scan_part ls s e f k \/ nothing e f k -> k = [] \/ exists x y, k = [piece s "scan_type" x y].
Proof. intros [(x & _ & _ & _ & ->)|[_ ->]]; eauto. Qed.
Lemma rate_kids s f b k : rate_part s f b k \/ nothing f b k -> k = [] \/ exists x y, k = [piece s "frame_rate" x y] /\ In (slice x y s) rate_texts.
Proof. intros [(H & _ & ->)|[_ ->]]; eauto 6. Qed.
Lemma height_num hs s m e k : forallb (fun t => forallb is_digit (lit t) && negb (str_eqb (lit t) [])) hs = true -> height_part hs s m e k -> k = [piece s "height" m e] /\ number (slice m e s).
Proof.
  intros F (H & _ & ->). split; [reflexivity|]. apply in_map_iff in H as (t & <- & Ht). rewrite forallb_forall in F. specialize (F t Ht). apply Bool.andb_true_iff in F as [F1 F2].
  split; [intros E; rewrite E in F2; discriminate|]. intros c Hc. rewrite forallb_forall in F1. specialize (F1 c Hc). unfold is_digit in F1. lia.
Qed.
Lemma size_shape s a b kids : size s a b kids \/ resolution s a b kids -> exists w h sc fr, kids = opt_kid s "width" w ++ [piece s "height" (fst h) (snd h)] ++ opt_kid s "scan_type" sc ++ opt_kid s "frame_rate" fr /\
  match w with Some (x, y) => number (slice x y s) | None => True end /\ number (slice (fst h) (snd h) s) /\ match fr with Some (x, y) => In (slice x y s) rate_texts | None => True end.
Proof.
  intros H.
  assert (Q : forall hs ls m e f k1 k2 k3 k4, forallb (fun t => forallb is_digit (lit t) && negb (str_eqb (lit t) [])) hs = true -> width_part s a m k1 -> height_part hs s m e k2 -> scan_part ls s e f k3 \/ nothing e f k3 -> rate_part s f b k4 \/ nothing f b k4 \/ k4 = [] ->
    kids = k1 ++ k2 ++ k3 ++ k4 -> exists w h sc fr, kids = opt_kid s "width" w ++ [piece s "height" (fst h) (snd h)] ++ opt_kid s "scan_type" sc ++ opt_kid s "frame_rate" fr /\
    match w with Some (x, y) => number (slice x y s) | None => True end /\ number (slice (fst h) (snd h) s) /\ match fr with Some (x, y) => In (slice x y s) rate_texts | None => True end).
  { intros hs ls m e f k1 k2 k3 k4 F P1 P2 P3 P4 ->. apply width_kids in P1. apply (height_num _ _ _ _ _ F) in P2 as [-> N2]. apply scan_kids in P3.
    assert (P5 : k4 = [] \/ exists x y, k4 = [piece s "frame_rate" x y] /\ In (slice x y s) rate_texts) by (destruct P4 as [P4|[P4| ->]]; [apply (rate_kids s f b); auto|apply (rate_kids s f b); auto|auto]).
    assert (exists w, k1 = opt_kid s "width" w /\ match w with Some (x, y) => number (slice x y s) | None => True end) as (w & -> & Nw) by (destruct P1 as [->|(q & -> & Nq)]; [exists None; split; [reflexivity|exact I]|exists (Some (a, q)); split; [reflexivity|exact Nq]]).
    assert (exists sc, k3 = opt_kid s "scan_type" sc) as (sc & ->) by (destruct P3 as [->|(x & y & ->)]; [exists None; reflexivity|exists (Some (x, y)); reflexivity]).
    assert (exists fr, k4 = opt_kid s "frame_rate" fr /\ match fr with Some (x, y) => In (slice x y s) rate_texts | None => True end) as (fr & -> & Nr) by (destruct P5 as [->|(x & y & -> & Nr)]; [exists None; split; [reflexivity|exact I]|exists (Some (x, y)); split; [reflexivity|exact Nr]]).
    exists w, (m, e), sc, fr. auto. }
  destruct H as [H|H].
  - destruct H as [m e f k1 k2 k3 k4 P1 P2 P3 P4|m e f k1 k2 k3 k4 P1 P2 P3 P4|m e f k1 k2 k3 P1 P2 P3 P4|m e f k1 k2 k3 P1 P2 P3 P4].
    + apply (Q interlaced_heights "iI"%string m e f k1 k2 k3 k4); auto; tauto.
    + apply (Q progressive_heights "pP"%string m e f k1 k2 k3 k4); auto; tauto.
    + apply (Q progressive_heights "pP"%string m e f k1 k2 k3 []); auto. rewrite app_nil_r. reflexivity.
    + apply (Q progressive_heights "pP"%string m e f k1 k2 k3 []); auto. rewrite app_nil_r. reflexivity.
  - destruct H as (q & p & e & r & c & N1 & _ & _ & _ & _ & _ & _ & N2 & _ & _ & ->). exists (Some (a, q)), (r, b), None, None. split; [reflexivity|]. split; [exact N1|]. split; [exact N2|exact I].
Qed.
Theorem C91_groups s i p r ms : any_order i p r -> screen_matches i p r s = Ok ms -> let sizes := filter (fun m => str_eqb (m_name m) (lit "screen_size")) ms in
  unique_groups sizes /\ numeric_groups s sizes /\ frame_rates_numeric s sizes.
Proof.
  intros O E. cbv zeta.
  assert (Sh : forall m, In m (filter (fun m => str_eqb (m_name m) (lit "screen_size")) ms) -> m_children m = [] \/ exists w h sc fr, m_children m = opt_kid s "width" w ++ [piece s "height" (fst h) (snd h)] ++ opt_kid s "scan_type" sc ++ opt_kid s "frame_rate" fr /\
    match w with Some (x, y) => number (slice x y s) | None => True end /\ number (slice (fst h) (snd h) s) /\ match fr with Some (x, y) => In (slice x y s) rate_texts | None => True end).
  { intros m Hm. apply filter_In in Hm as [Hm Hn]. apply str_eqb_eq in Hn. destruct (C91_only s i p r ms m O E Hm Hn) as [_ [(kids & Sz & Em)|[_ Em]]].
    - right. destruct (size_shape _ _ _ _ Sz) as (w & h & sc & fr & Ek & Q). exists w, h, sc, fr. split; [|exact Q]. rewrite Em. exact Ek.
    - left. rewrite Em. reflexivity. }
  assert (Nd : forall t, number t -> forallb is_digit t = true) by (intros t [_ H]; apply forallb_forall; intros c Hc; specialize (H c Hc); unfold is_digit; lia).
  split; [|split].
  - intros m Hm. destruct (Sh m Hm) as [->|(w & h & sc & fr & -> & _)]; [constructor|]. destruct w as [[? ?]|], sc as [[? ?]|], fr as [[? ?]|]; cbn [opt_kid app map piece c_name]; repeat constructor; cbn [In]; intuition discriminate.
  - intros m n t Hm Hn (c & Hc & En & ->). destruct (Sh m Hm) as [E0|(w & h & sc & fr & E0 & N1 & N2 & _)]; rewrite E0 in Hc; [destruct Hc|]. destruct w as [[? ?]|], sc as [[? ?]|], fr as [[? ?]|]; cbn [opt_kid app In] in Hc;
      repeat match goal with H : _ \/ _ |- _ => destruct H as [<-|H] end; try destruct Hc; cbn [piece c_name c_start c_end] in *; try (apply Nd; assumption); destruct Hn as [->|Hn]; try (subst n); discriminate En.
  - intros m t Hm (c & Hc & En & ->). destruct (Sh m Hm) as [E0|(w & h & sc & fr & E0 & _ & _ & N3)]; rewrite E0 in Hc; [destruct Hc|].
    assert (R : forall t, In t rate_texts -> exists c r, t = c :: r /\ is_digit c = true).
    { intros t Ht. assert (F : forallb (fun t => match t with c :: _ => is_digit c | [] => false end) rate_texts = true) by (vm_compute; reflexivity). rewrite forallb_forall in F. specialize (F t Ht). destruct t as [|x y]; [discriminate|eauto]. }
    destruct w as [[? ?]|], sc as [[? ?]|], fr as [[? ?]|]; cbn [opt_kid app In] in Hc;
      repeat match goal with H : _ \/ _ |- _ => destruct H as [<-|H] end; try destruct Hc; cbn [piece c_name c_start c_end] in *; try discriminate En; apply R; assumption.
Qed.
Print Assumptions C91_groups.
