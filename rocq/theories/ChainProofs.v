(** Chains: what is found comes from the parts, and a first part that nothing before crosses is kept. *)
From Verif Require Import Py Text Regex RegexFacts Date Rebulk RebulkFacts Episodes Patterns Chain.
From Coq Require Import Arith Lia.
Local Open Scope nat_scope.

Section Facts.
  Context (s : str).
  Lemma from_sound r pos f : In f (finditer_from s r pos) -> pos <= f_start f <= List.length s /\ match_at s r (f_start f) = Some (f_end f, snd f).
  Proof.
    unfold finditer_from. generalize (S (List.length s)). intros fuel. revert pos. induction fuel as [|n IH]; intros pos; cbn [finditer_loop]; [intros []|].
    destruct (search s r pos) as [[[a b] c]|] eqn:E; [|intros []]. apply search_at in E as (H1 & H2 & _). intros [<-|H]; [split; [exact H1|exact H2]|].
    apply IH in H as [H3 H4]. split; [|exact H4]. apply match_at_M, M_mono in H2 as [H2 _]. lia.
  Qed.
  Lemma run_In e l f : In f (run e l) -> In f l.
  Proof. revert e. induction l as [|g l IH]; intros e; cbn [run]; [auto|]. destruct (_ =? _); [|intros []]. intros [<-|H]; [left; reflexivity|right; eapply IH, H]. Qed.
  Lemma limit_In m l f : In f (limit m l) -> In f l.
  Proof. destruct m as [n|]; cbn [limit]; [|auto]. intros H. rewrite <- (firstn_skipn n l). apply in_app_iff. auto. Qed.
  Lemma head_sound pos p f : In f (head_found s pos p) -> In f (finditer_from s (rx_re (pt_rx p)) pos).
  Proof. unfold head_found. destruct (finditer_from _ _ _) as [|g r]; [auto|]. intros H. apply limit_In in H. destruct H as [<-|H]; [left; reflexivity|right; eapply run_In, H]. Qed.
  Lemma tail_sound pos p f : In f (tail_found s pos p) -> In f (finditer_from s (rx_re (pt_rx p)) pos).
  Proof. intros H. apply limit_In, run_In in H. exact H. Qed.
  Lemma end_of_In pos l : l <> [] -> exists f, In f l /\ end_of pos l = f_end f.
  Proof. intros H. unfold end_of. destruct (rev l) as [|f r] eqn:E; [apply (f_equal (@rev _)) in E; rewrite rev_involutive in E; contradiction|]. exists f. split; [apply in_rev; rewrite E; left; reflexivity|reflexivity]. Qed.
  Lemma end_of_nil pos : end_of pos [] = pos.
  Proof. reflexivity. Qed.
  (** each match of a part *)
  Definition good (g : grp) : Prop := match_at s (rx_re (pt_rx (fst g))) (f_start (snd g)) = Some (g_end g, snd (snd g)) /\ f_start (snd g) <= List.length s.
  Lemma tails_sound tails : forall pos g, In g (fst (tails_found s pos tails)) -> In (fst g) tails /\ good g.
  Proof.
    induction tails as [|p r IH]; intros pos g; cbn [tails_found fst]; [intros []|].
    specialize (IH (end_of pos (tail_found s pos p))). destruct (tails_found s (end_of pos (tail_found s pos p)) r) as [gs e]. cbn [fst] in *.
    intros H. apply in_app_iff in H as [H|H]; [|apply IH in H as [? ?]; split; [right; assumption|assumption]].
    apply in_map_iff in H as (f & <- & Hf). cbn [fst]. split; [left; reflexivity|]. apply tail_sound, from_sound in Hf. unfold good, g_end. cbn [fst snd]. tauto.
  Qed.
  Lemma loop_sound C fuel : forall pos l, In l (chain_loop C s fuel pos) ->
    exists h r, l = (ch_head C, h) :: r /\ good (ch_head C, h) /\ forall g, In g r -> (fst g = ch_head C \/ In (fst g) (ch_tails C)) /\ good g.
  Proof.
    induction fuel as [|n IH]; intros pos l; cbn [chain_loop]; [intros []|]. destruct (pos <? List.length s); [|intros []].
    destruct (head_found s pos (ch_head C)) as [|h hs] eqn:E; [intros []|].
    pose proof (tails_sound (ch_tails C) (end_of pos (h :: hs))) as T. destruct (tails_found s (end_of pos (h :: hs)) (ch_tails C)) as [gs e]. cbn [fst] in T.
    intros [<-|H]; [|eapply IH, H]. assert (G : forall f, In f (h :: hs) -> good (ch_head C, f)).
    { intros f Hf. rewrite <- E in Hf. apply head_sound, from_sound in Hf. unfold good, g_end. cbn [fst snd]. tauto. }
    exists h, (map (fun h => (ch_head C, h)) hs ++ gs). split; [reflexivity|]. split; [apply G; left; reflexivity|].
    intros g Hg. apply in_app_iff in Hg as [Hg|Hg].
    - apply in_map_iff in Hg as (f & <- & Hf). split; [left; reflexivity|apply G; right; exact Hf].
    - apply T in Hg as [H1 H2]. auto.
  Qed.

  (** dropping parts *)
  Definition sub_list {A} (l l' : list A) : Prop := forall x, In x l -> In x l'.
  Lemma kept_In C l : forall g, In g (kept C s l) -> In g l.
  Proof.
    unfold kept. assert (K : forall l cur g, In g (fold_left (fun cur g => if ch_breaker C (kids_of s (cur ++ [g])) then cur else cur ++ [g]) l cur) -> In g cur \/ In g l).
    { induction l0 as [|x l0 IH]; intros cur g; cbn [fold_left]; [auto|]. intros H. apply IH in H as [H|H]; [|right; right; exact H].
      destruct (ch_breaker _ _); [left; exact H|]. apply in_app_iff in H as [H|[<-|[]]]; [left; exact H|right; left; reflexivity]. }
    intros g H. apply K in H as [[]|H]. exact H.
  Qed.
  Lemma kept_head C g l : ch_breaker C (group_of s g) = false -> exists r, kept C s (g :: l) = g :: r.
  Proof.
    intros H. unfold kept. cbn [fold_left app]. unfold kids_of at 2. cbn [flat_map]. rewrite app_nil_r, H.
    assert (K : forall l cur, exists r, fold_left (fun cur g => if ch_breaker C (kids_of s (cur ++ [g])) then cur else cur ++ [g]) l (g :: cur) = g :: r).
    { induction l0 as [|x l0 IH]; intros cur; cbn [fold_left]; [eauto|]. destruct (ch_breaker C (kids_of s ((g :: cur) ++ [x]))); [apply IH|]. cbn [app]. apply IH. }
    apply K.
  Qed.
  Lemma shrink_spec ok l : shrink ok l = [] \/ (ok (shrink ok l) = true /\ exists r, rev l = shrink ok l ++ r).
  Proof.
    induction l as [|g l IH]; cbn [shrink]; [left; reflexivity|]. destruct (ok (rev (g :: l))) eqn:E.
    - right. split; [exact E|]. exists []. rewrite app_nil_r. reflexivity.
    - destruct IH as [IH|[IH (r & IH2)]]; [left; exact IH|]. right. split; [exact IH|]. exists (r ++ [g]). cbn [rev]. rewrite IH2 at 1. rewrite app_assoc. reflexivity.
  Qed.
  Lemma shrink_keeps ok g l : ok [g] = true -> shrink ok (l ++ [g]) <> [].
  Proof.
    intros H. induction l as [|x l IH]; cbn [shrink app].
    - change (rev [g]) with [g]. rewrite H. discriminate.
    - destruct (ok (rev (x :: l ++ [g]))); [|exact IH]. intros E. apply (f_equal (@List.length _)) in E. rewrite rev_length in E. discriminate.
  Qed.
  Lemma settled_spec C l gs : settled C s l = gs -> gs <> [] -> ch_valid C s (chain_parent C s gs) (kids_of s gs) = true /\ exists r, kept C s l = gs ++ r.
  Proof.
    unfold settled. intros <- N. destruct (shrink_spec (fun gs => ch_valid C s (chain_parent C s gs) (kids_of s gs)) (rev (kept C s l))) as [H|[H1 H2]]; [contradiction|].
    split; [exact H1|]. rewrite rev_involutive in H2. exact H2.
  Qed.
  Lemma settled_head C g l : ch_breaker C (group_of s g) = false -> ch_valid C s (chain_parent C s [g]) (group_of s g) = true -> exists r, settled C s (g :: l) = g :: r.
  Proof.
    intros H1 H2. destruct (kept_head C g l H1) as (r & E). assert (N : settled C s (g :: l) <> []).
    { unfold settled. rewrite E. cbn [rev]. apply shrink_keeps. unfold kids_of. cbn [flat_map]. rewrite app_nil_r. exact H2. }
    destruct (settled_spec C (g :: l) _ eq_refl N) as (_ & r' & Er). rewrite E in Er. destruct (settled C s (g :: l)) as [|x y]; [contradiction|]. injection Er as <- _. eauto.
  Qed.

  (** ** order: the parts of a chain follow each other *)
  Inductive follow : nat -> list grp -> nat -> Prop :=
  | follow_nil p : follow p [] p
  | follow_cons p g l e : f_start (snd g) = p -> follow (g_end g) l e -> follow p (g :: l) e.
  Lemma follow_app p l e l' e' : follow p l e -> follow e l' e' -> follow p (l ++ l') e'.
  Proof. induction 1; [auto|]. intros H1. cbn [app]. constructor; auto. Qed.
  Lemma end_of_cons f p l : end_of p (f :: l) = end_of (f_end f) l.
  Proof. unfold end_of. cbn [rev]. destruct (rev l); reflexivity. Qed.
  Lemma follow_run q l : forall e, follow e (map (fun f => (q, f)) (run e l)) (end_of e (run e l)).
  Proof.
    induction l as [|f l IH]; intros e; cbn [run map]; [constructor|]. destruct (Nat.eqb_spec (f_start f) e); [|constructor].
    rewrite end_of_cons. cbn [map]. constructor; [cbn [snd]; assumption|]. apply IH.
  Qed.
  Lemma follow_limit q m l : forall e, follow e (map (fun f => (q, f)) l) (end_of e l) -> follow e (map (fun f => (q, f)) (limit m l)) (end_of e (limit m l)).
  Proof.
    destruct m as [n|]; cbn [limit]; [|auto]. revert n. induction l as [|f l IH]; intros n e; [rewrite firstn_nil; auto|]. destruct n as [|n]; [intros _; constructor|].
    cbn [firstn map]. rewrite !end_of_cons. intros H. inversion H as [|? ? ? ? Es F]. constructor; [exact Es|]. apply IH. exact F.
  Qed.
  Lemma tails_follow tails : forall pos, follow pos (fst (tails_found s pos tails)) (snd (tails_found s pos tails)).
  Proof.
    induction tails as [|p r IH]; intros pos; cbn [tails_found]; [constructor|]. specialize (IH (end_of pos (tail_found s pos p))).
    destruct (tails_found s (end_of pos (tail_found s pos p)) r) as [gs e]. cbn [fst snd] in *. eapply follow_app; [|exact IH]. unfold tail_found. apply follow_limit, follow_run.
  Qed.
  Lemma loop_follow C fuel : forall pos l, In l (chain_loop C s fuel pos) -> exists a e, follow a l e.
  Proof.
    induction fuel as [|n IH]; intros pos l; cbn [chain_loop]; [intros []|]. destruct (pos <? List.length s); [|intros []].
    destruct (head_found s pos (ch_head C)) as [|h hs] eqn:E; [intros []|].
    pose proof (tails_follow (ch_tails C) (end_of pos (h :: hs))) as T. destruct (tails_found s (end_of pos (h :: hs)) (ch_tails C)) as [gs e]. cbn [fst snd] in T.
    intros [<-|H]; [|eapply IH, H]. exists (f_start h), e. eapply follow_app; [|exact T]. rewrite end_of_cons. rewrite <- (end_of_cons h (f_start h)). rewrite <- E. unfold head_found in E |- *.
    destruct (finditer_from s (rx_re (pt_rx (ch_head C))) pos) as [|f r]; [discriminate|]. assert (f = h) as ->.
    { destruct (pt_max (ch_head C)) as [[|k]|]; cbn in E; congruence. }
    apply follow_limit. cbn [map]. rewrite end_of_cons. constructor; [reflexivity|]. apply follow_run.
  Qed.
  (** [l] with some of its parts left out *)
  Inductive without {A} : list A -> list A -> Prop :=
  | without_nil : without [] []
  | without_drop x l l' : without l l' -> without l (x :: l')
  | without_keep x l l' : without l l' -> without (x :: l) (x :: l').
  Lemma without_none {A} (l : list A) : without [] l.
  Proof. induction l; constructor; assumption. Qed.
  Lemma without_app {A} (l1 l1' l2 l2' : list A) : without l1 l1' -> without l2 l2' -> without (l1 ++ l2) (l1' ++ l2').
  Proof. intros H1 H2. induction H1; cbn [app]; [exact H2|apply without_drop; assumption|apply without_keep; assumption]. Qed.
  Lemma without_refl {A} (l : list A) : without l l.
  Proof. induction l; constructor; assumption. Qed.
  Lemma without_prefix {A} (l r l' : list A) : without (l ++ r) l' -> without l l'.
  Proof.
    revert l. induction l' as [|x l' IH]; intros l H.
    - inversion H as [E| |]. destruct l; [constructor|discriminate].
    - inversion H as [|x' k k' H1 E1 E2|x' k k' H1 E1 E2].
      + apply without_drop, IH. exact H1.
      + destruct l as [|y l]; [apply without_none|]. cbn [app] in E1. injection E1 as <- E1. subst k x'. apply without_keep. apply IH. exact H1.
  Qed.
  Lemma kept_without C l : without (kept C s l) l.
  Proof.
    unfold kept. assert (K : forall l cur l0, without cur l0 -> without (fold_left (fun cur g => if ch_breaker C (kids_of s (cur ++ [g])) then cur else cur ++ [g]) l cur) (l0 ++ l)).
    { induction l0 as [|x l0 IH]; intros cur l1 H; cbn [fold_left]; [rewrite app_nil_r; exact H|]. replace (l1 ++ x :: l0) with ((l1 ++ [x]) ++ l0) by (rewrite <- app_assoc; reflexivity). apply IH.
      destruct (ch_breaker _ _).
      - rewrite <- (app_nil_r cur). apply without_app; [exact H|apply without_none].
      - apply without_app; [exact H|apply without_refl]. }
    apply (K l [] []). constructor.
  Qed.

  (** ** soundness: [l] is the whole text of the chain, [gs] the parts that stay *)
  Lemma chain_sound C m : (forall f, good (ch_head C, f) -> ch_breaker C (group_of s (ch_head C, f)) = false) ->
    In m (chain_matches C s) -> exists h r t a e,
    follow a ((ch_head C, h) :: t) e /\ without r t /\
    good (ch_head C, h) /\ (forall g, In g t -> (fst g = ch_head C \/ In (fst g) (ch_tails C)) /\ good g) /\
    ch_valid C s (chain_parent C s ((ch_head C, h) :: r)) (kids_of s ((ch_head C, h) :: r)) = true /\
    (m = chain_parent C s ((ch_head C, h) :: r) \/ exists g m', In g ((ch_head C, h) :: r) /\ In m' (group_of s g) /\ m = hide (ch_private C) m').
  Proof.
    intros Hb. unfold chain_matches. rewrite in_flat_map. intros (l & Hl & Hm). unfold chain_one in Hm. destruct (settled C s l) as [|g gs] eqn:E; [destruct Hm|].
    destruct (settled_spec C l (g :: gs) E ltac:(discriminate)) as (V & r & K). pose proof (loop_follow C _ _ _ Hl) as (a & e & F). apply loop_sound in Hl as (h & t & -> & G1 & G2).
    destruct (kept_head C (ch_head C, h) t (Hb h G1)) as (r' & K'). pose proof (kept_without C ((ch_head C, h) :: t)) as W. unfold grp in *. rewrite K in K', W. cbn [app] in K'. injection K' as -> E2.
    cbn [app] in W. apply (without_prefix ((ch_head C, h) :: gs) r) in W.
    assert (W' : without gs t). { inversion W; subst; [|assumption]. clear - H1. remember ((ch_head C, h) :: gs) as l eqn:E. revert E. induction H1; intros E; [discriminate|constructor; auto|]. injection E as -> ->. constructor. assumption. }
    exists h, gs, t, a, e. split; [exact F|]. split; [exact W'|]. split; [exact G1|]. split; [exact G2|]. split; [exact V|].
    destruct Hm as [<-|Hm]; [left; reflexivity|right]. apply in_map_iff in Hm as (m' & <- & Hm). unfold kids_of in Hm. apply in_flat_map in Hm as (g & Hg & Hm). eauto.
  Qed.

  (** ** completeness *)
  Section Found.
    Context (C : chain) (a b : nat) (c : caps).
    Let hr := rx_re (pt_rx (ch_head C)).
    Context (Hc : consumes s hr) (Hmax : pt_max (ch_head C) <> Some 0).
    Context (Ha : a < List.length s) (Hm : match_at s hr a = Some (b, c)).
    (** no part of the chain that starts before reaches it *)
    Context (Ih : forall a' b' d, a' < a -> M s hr a' [] b' d -> b' < a).
    (** the other parts start where a part ends *)
    Inductive ended : nat -> Prop :=
    | ended_head a0 e d : M s (rx_re (pt_rx (ch_head C))) a0 [] e d -> ended e
    | ended_tail q a0 e d : ended a0 -> In q (ch_tails C) -> M s (rx_re (pt_rx q)) a0 [] e d -> ended e.
    Context (It : forall p a' b' d, In p (ch_tails C) -> ended a' -> a' < a -> M s (rx_re (pt_rx p)) a' [] b' d -> b' < a).
    Lemma first_found pos : pos <= a -> exists f r, finditer_from s hr pos = f :: r /\ (f_start f < a \/ f = (a, b, c)) /\ match_at s hr (f_start f) = Some (f_end f, snd f) /\ pos <= f_start f.
    Proof.
      intros L. unfold finditer_from. cbn [finditer_loop]. destruct (search s hr pos) as [[[a0 b0] c0]|] eqn:E.
      - apply search_at in E as (H1 & H2 & H3). exists (a0, b0, c0), (finditer_loop s hr (List.length s) b0). split; [reflexivity|]. unfold f_start, f_end. cbn [fst snd]. split; [|split; [exact H2|lia]].
        destruct (Nat.lt_trichotomy a0 a) as [G|[G|G]]; [left; exact G| |exfalso; rewrite (H3 a ltac:(lia)) in Hm; discriminate]. right. subst a0. rewrite Hm in H2. injection H2 as <- <-. reflexivity.
      - exfalso. pose proof (search_none s hr pos E a ltac:(lia)) as H. rewrite Hm in H. discriminate.
    Qed.
    Lemma run_before (P : nat -> Prop) q l (Hp : forall a' b' d, P a' -> M s (rx_re (pt_rx q)) a' [] b' d -> P b') (Hq : forall a' b' d, P a' -> a' < a -> M s (rx_re (pt_rx q)) a' [] b' d -> b' < a) : forall e, P e -> e < a -> (forall f, In f l -> match_at s (rx_re (pt_rx q)) (f_start f) = Some (f_end f, snd f)) -> P (end_of e (run e l)) /\ end_of e (run e l) < a /\ forall f, In f (run e l) -> f_end f < a /\ P (f_end f).
    Proof.
      induction l as [|f l IH]; intros e Pe L H; cbn [run]; [split; [exact Pe|split; [exact L|intros ? []]]|]. destruct (Nat.eqb_spec (f_start f) e) as [E|E]; [|split; [exact Pe|split; [exact L|intros ? []]]].
      rewrite end_of_cons. assert (Mf : M s (rx_re (pt_rx q)) (f_start f) [] (f_end f) (snd f)) by (apply match_at_M, H; left; reflexivity).
      assert (Lf : f_end f < a) by (apply (Hq (f_start f) (f_end f) (snd f)); [rewrite E; exact Pe|lia|exact Mf]). assert (Pf : P (f_end f)) by (eapply Hp; [|exact Mf]; rewrite E; exact Pe).
      destruct (IH (f_end f) Pf Lf ltac:(intros g Hg; apply H; right; exact Hg)) as (H1 & H2 & H3). split; [exact H1|]. split; [exact H2|]. intros g [<-|Hg]; [auto|apply H3, Hg].
    Qed.
    Lemma end_before (P : nat -> Prop) m e l : P e -> e < a -> (forall f, In f l -> f_end f < a /\ P (f_end f)) -> end_of e (limit m l) < a /\ P (end_of e (limit m l)).
    Proof.
      intros Pe L H. destruct (limit m l) as [|f r] eqn:E; [split; [exact L|exact Pe]|]. destruct (end_of_In e (f :: r) ltac:(discriminate)) as (g & Hg & ->). apply H. rewrite <- E in Hg. apply limit_In in Hg. exact Hg.
    Qed.
    Lemma tails_before tails : (forall p, In p tails -> In p (ch_tails C)) -> forall pos, ended pos -> pos < a -> snd (tails_found s pos tails) < a.
    Proof.
      induction tails as [|p r IH]; intros Hin pos Pe L; cbn [tails_found snd]; [exact L|].
      assert (L2 : end_of pos (tail_found s pos p) < a /\ ended (end_of pos (tail_found s pos p))).
      { unfold tail_found. apply end_before; [exact Pe|exact L|]. apply (run_before ended p); [|intros a' b' d; apply It; apply Hin; left; reflexivity|exact Pe|exact L|].
        - intros a' b' d Pa HM. apply (ended_tail p a' b' d Pa); [apply Hin; left; reflexivity|exact HM].
        - intros f Hf. apply from_sound in Hf. tauto. }
      destruct L2 as [L2 L3]. specialize (IH ltac:(intros q Hq; apply Hin; right; exact Hq) _ L3 L2). destruct (tails_found s (end_of pos (tail_found s pos p)) r) as [gs e]. exact IH.
    Qed.
    Lemma tails_mono tails : forall pos, pos <= snd (tails_found s pos tails) \/ tails <> [].
    Proof. destruct tails; intros pos; [left; cbn; lia|right; discriminate]. Qed.
    Lemma follow_le p l e : (forall g, In g l -> good g) -> follow p l e -> p <= e.
    Proof.
      intros H F. induction F as [|p g l e E F IH]; [lia|]. assert (G : good g) by (apply H; left; reflexivity). destruct G as [G L]. apply match_at_M, M_mono in G as [G _].
      specialize (IH ltac:(intros x Hx; apply H; right; exact Hx)). unfold g_end in *. lia.
    Qed.
    Lemma loop_reaches fuel : forall pos, pos <= a -> List.length s < fuel + pos -> exists r, In ((ch_head C, (a, b, c)) :: r) (chain_loop C s fuel pos).
    Proof.
      induction fuel as [|n IH]; intros pos L Lf; [lia|]. cbn [chain_loop]. destruct (Nat.ltb_spec pos (List.length s)); [|lia].
      destruct (first_found pos L) as (f & r & E & Hf & Mf & Lp). unfold head_found. fold hr. rewrite E.
      assert (K : exists r', limit (pt_max (ch_head C)) (f :: run (f_end f) r) = f :: r') by (destruct (pt_max (ch_head C)) as [[|k]|]; cbn [limit firstn]; [contradiction|eauto|eauto]).
      destruct K as (r' & K). rewrite K. pose proof (tails_before (ch_tails C) ltac:(auto) (end_of pos (f :: r'))) as T. pose proof (tails_follow (ch_tails C) (end_of pos (f :: r'))) as F. pose proof (tails_sound (ch_tails C) (end_of pos (f :: r'))) as S.
      destruct (tails_found s (end_of pos (f :: r')) (ch_tails C)) as [gs e]. cbn [fst snd] in T, F, S. destruct Hf as [Hf| ->].
      - assert (Lb : f_end f < a) by (apply (Ih (f_start f) (f_end f) (snd f) Hf); apply match_at_M, Mf).
        assert (Lc : f_start f < f_end f) by (apply (Hc _ _ _ _ (match_at_M _ _ _ _ _ Mf))).
        assert (HE : forall g, match_at s hr (f_start g) = Some (f_end g, snd g) -> ended (f_end g)) by (intros g Hg; apply (ended_head (f_start g) _ (snd g)), match_at_M, Hg).
        assert (B : forall g, In g (f :: run (f_end f) r) -> f_end g < a /\ ended (f_end g)).
        { intros g [<-|Hg]; [split; [exact Lb|apply HE, Mf]|]. revert g Hg. apply (run_before ended (ch_head C)); [intros a' b' d _ HM; apply (ended_head a' b' d HM)|intros a' b' d _; exact (Ih a' b' d)|apply HE, Mf|exact Lb|]. intros g Hg. assert (Hg' : In g (finditer_from s hr pos)) by (rewrite E; right; exact Hg). apply from_sound in Hg'. tauto. }
        assert (Le : end_of pos (f :: r') < a /\ ended (end_of pos (f :: r'))).
        { destruct (end_of_In pos (f :: r') ltac:(discriminate)) as (g & Hg & ->). apply B. rewrite <- K in Hg. apply limit_In in Hg. exact Hg. }
        destruct Le as [Le Le'].
        assert (Lg : f_end f <= end_of pos (f :: r')).
        { rewrite end_of_cons. assert (Fo : follow (f_end f) (map (fun x => (ch_head C, x)) r') (end_of (f_end f) r')).
          { pose proof (follow_limit (ch_head C) (pt_max (ch_head C)) (f :: run (f_end f) r) (f_start f)) as Q. rewrite K in Q. cbn [map] in Q. rewrite !end_of_cons in Q.
            assert (Q1 : follow (f_start f) ((ch_head C, f) :: map (fun x => (ch_head C, x)) r') (end_of (f_end f) r')) by (apply Q; constructor; [reflexivity|apply follow_run]). inversion Q1 as [|? ? ? ? Es F0]. exact F0. }
          apply (follow_le _ _ _) in Fo; [exact Fo|]. intros g Hg. apply in_map_iff in Hg as (x & <- & Hx). assert (Hx' : In x (finditer_from s hr pos)).
          { rewrite E. assert (In x (f :: r')) by (right; exact Hx). rewrite <- K in H0. apply limit_In in H0. destruct H0 as [<-|H0]; [left; reflexivity|right; eapply run_In, H0]. }
          apply from_sound in Hx'. unfold good, g_end. cbn [fst snd]. fold hr. tauto. }
        assert (end_of pos (f :: r') <= e) by (apply (follow_le _ gs); [intros g Hg; apply S, Hg|exact F]).
        destruct (IH e) as (r2 & Hr2); [specialize (T Le' Le); lia|lia|]. exists r2. right. exact Hr2.
      - exists (map (fun h => (ch_head C, h)) r' ++ gs). left. reflexivity.
    Qed.
    Lemma chain_complete : ch_breaker C (group_of s (ch_head C, (a, b, c))) = false -> ch_valid C s (chain_parent C s [(ch_head C, (a, b, c))]) (group_of s (ch_head C, (a, b, c))) = true ->
      forall m, In m (group_of s (ch_head C, (a, b, c))) -> In (hide (ch_private C) m) (chain_matches C s).
    Proof.
      intros B V m Hg. destruct (loop_reaches (S (List.length s)) 0 ltac:(lia) ltac:(lia)) as (r & Hr). unfold chain_matches. apply in_flat_map. eexists. split; [exact Hr|].
      unfold chain_one. destruct (settled_head C _ r B V) as (r' & Er). unfold grp, found in *. rewrite Er. right. apply in_map. unfold kids_of. cbn [flat_map]. apply in_app_iff. left. exact Hg.
    Qed.
  End Found.
End Facts.
