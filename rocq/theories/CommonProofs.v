From Coq Require Import ZifyBool ZifyNat ZifyN.
From Verif Require Import Py PyFacts Text TextFacts Formatters FormattersProofs Common.

(** * parentheses of a regular expression: backslash escapes the next character *)
Fixpoint scan (s : str) (depth : nat) : option nat :=
  match s with
  | [] => Some depth
  | c :: r =>
      if N.eqb c 92 then match r with [] => None | _ :: r' => scan r' depth end
      else if N.eqb c 40 then scan r (S depth)
      else if N.eqb c 41 then match depth with O => None | S d => scan r d end
      else scan r depth
  end.
Definition balanced (s : str) : Prop := scan s 0 = Some 0.
Lemma scan_app s1 : forall d d1 s2, scan s1 d = Some d1 -> scan (s1 ++ s2) d = scan s2 d1.
Proof.
  induction s1 as [s1 IH] using (well_founded_ind (Wf_nat.well_founded_ltof _ (@List.length N))).
  intros d d1 s2. unfold Wf_nat.ltof in IH. destruct s1 as [|c r]; cbn [scan app].
  - intros H; injection H as <-; reflexivity.
  - destruct (N.eqb c 92).
    + destruct r as [|c2 r]; [discriminate|]. cbn [app]. apply IH. simpl; lia.
    + destruct (N.eqb c 40); [apply IH; simpl; lia|]. destruct (N.eqb c 41); [|apply IH; simpl; lia].
      destruct d; [discriminate|]. apply IH; simpl; lia.
Qed.
Lemma scan_lift s : forall d d1 k, scan s d = Some d1 -> scan s (d + k) = Some (d1 + k).
Proof.
  induction s as [s IH] using (well_founded_ind (Wf_nat.well_founded_ltof _ (@List.length N))).
  intros d d1 k. unfold Wf_nat.ltof in IH. destruct s as [|c r]; cbn [scan].
  - intros H; injection H as <-; reflexivity.
  - destruct (N.eqb c 92).
    + destruct r as [|c2 r]; [discriminate|]. apply IH. simpl; lia.
    + destruct (N.eqb c 40); [intros H; apply (IH r ltac:(simpl; lia) (S d)) with (k := k) in H; exact H|].
      destruct (N.eqb c 41); [|apply IH; simpl; lia]. destruct d; [discriminate|]. cbn [Nat.add]. apply IH; simpl; lia.
Qed.
Lemma balanced_scan s d : balanced s -> scan s d = Some d.
Proof. intros H. apply (scan_lift s 0 0 d) in H. exact H. Qed.
Lemma balanced_app a b : balanced a -> balanced b -> balanced (a ++ b).
Proof. intros Ha Hb. unfold balanced. rewrite (scan_app a 0 0 b Ha). exact Hb. Qed.
Lemma balanced_flat {A} (f : A -> str) l : (forall x, In x l -> balanced (f x)) -> balanced (flat_map f l).
Proof.
  induction l as [|x l IH]; intros H; [reflexivity|]. cbn [flat_map]. apply balanced_app; [apply H; left; reflexivity|].
  apply IH. intros y Hy; apply H; right; exact Hy.
Qed.
Lemma escape_balanced s : balanced (re_escape s).
Proof.
  unfold re_escape. apply balanced_flat. intros c _. destruct (cmem c special_chars) eqn:E; [reflexivity|].
  unfold balanced. cbn [scan].
  destruct (N.eqb_spec c 92) as [->|]; [discriminate|]. destruct (N.eqb_spec c 40) as [->|]; [discriminate|]. destruct (N.eqb_spec c 41) as [->|]; [discriminate|]. reflexivity.
Qed.
Definition plain_name (n : str) : Prop := forall c, In c n -> c <> 92%N /\ c <> 40%N /\ c <> 41%N.
Lemma plain_balanced n : plain_name n -> balanced n.
Proof.
  induction n as [|c n IH]; intros H; [reflexivity|]. unfold balanced. cbn [scan]. destruct (H c (or_introl eq_refl)) as (H1 & H2 & H3).
  destruct (N.eqb_spec c 92) as [|_]; [congruence|]. destruct (N.eqb_spec c 40) as [|_]; [congruence|]. destruct (N.eqb_spec c 41) as [|_]; [congruence|].
  apply IH. intros d Hd; apply H; right; exact Hd.
Qed.
Lemma group_balanced a : balanced a -> balanced (lit "(" ++ a ++ lit ")").
Proof.
  intros H. unfold balanced. change (scan (a ++ lit ")") 1 = Some 0). rewrite (scan_app a 1 1 (lit ")") (balanced_scan a 1 H)). reflexivity.
Qed.
Lemma or_balanced ps name esc : ps <> [] -> match name with Some n => plain_name n | None => True end ->
  (esc = false -> Forall balanced ps) -> balanced (build_or_pattern ps name esc).
Proof.
  intros Hne Hn Hp. destruct ps as [|p r]; [congruence|]. unfold build_or_pattern.
  set (one := fun p => if esc then lit "(?:" ++ re_escape p ++ lit ")" else p).
  assert (H1 : forall q, In q (p :: r) -> balanced (one q)).
  { intros q Hq. unfold one. destruct esc.
    - change (lit "(?:" ++ re_escape q ++ lit ")") with (lit "(" ++ (lit "?:" ++ re_escape q) ++ lit ")").
      apply group_balanced, balanced_app; [reflexivity|apply escape_balanced].
    - specialize (Hp eq_refl). rewrite Forall_forall in Hp. apply Hp, Hq. }
  set (nm := match name with Some (c :: n) => lit "P<" ++ (c :: n) ++ lit ">" | _ => lit ":" end).
  assert (H2 : balanced nm).
  { unfold nm. destruct name as [[|c n]|]; try reflexivity. apply balanced_app; [reflexivity|]. apply balanced_app; [apply plain_balanced; exact Hn|reflexivity]. }
  change (balanced ((lit "(" ++ lit "?" ++ nm ++ one p ++ flat_map (fun p => lit "|" ++ one p) r) ++ lit ")")).
  rewrite <- app_assoc. apply group_balanced. apply balanced_app; [reflexivity|]. apply balanced_app; [exact H2|].
  apply balanced_app; [apply H1; left; reflexivity|]. apply balanced_flat. intros q Hq. apply balanced_app; [reflexivity|]. apply H1; right; exact Hq.
Qed.

(** * strip *)
Lemma strip_start_ok chars s : forall fuel a p c, a <= p -> nth_error s p = Some c -> chars c = false -> p - a < fuel ->
  (forall k d, a <= k < p -> nth_error s k = Some d -> chars d = true) ->
  strip_start chars fuel s (Z.of_nat a) = Ok (Z.of_nat p).
Proof.
  induction fuel as [|f IH]; intros a p c Hap Hp Hc Hf Hall; [lia|]. cbn [strip_start].
  assert (Hlt : p < List.length s) by (apply nth_error_Some; congruence).
  destruct (nth_error s a) as [d|] eqn:Ea; [|apply nth_error_None in Ea; lia].
  rewrite (zindex_nat s a), Ea. destruct (Nat.eq_dec a p) as [->|Hn].
  - rewrite Hp in Ea. injection Ea as <-. rewrite Hc. reflexivity.
  - rewrite (Hall a d ltac:(lia) Ea). replace (Z.of_nat a + 1)%Z with (Z.of_nat (S a)) by lia.
    apply (IH (S a) p c); try assumption; try lia. intros k x Hk; apply Hall; lia.
Qed.
Lemma strip_end_ok chars s : forall fuel e q c, q < e -> e <= List.length s -> nth_error s q = Some c -> chars c = false -> e - q <= fuel ->
  (forall k d, q < k < e -> nth_error s k = Some d -> chars d = true) ->
  strip_end chars fuel s (Z.of_nat e) = Ok (Z.of_nat (S q)).
Proof.
  induction fuel as [|f IH]; intros e q c Hqe Hle Hq Hc Hf Hall; [lia|]. cbn [strip_end].
  replace (Z.of_nat e - 1)%Z with (Z.of_nat (e - 1)) by lia.
  destruct (nth_error s (e - 1)) as [d|] eqn:Ee; [|apply nth_error_None in Ee; lia].
  rewrite (zindex_nat s (e - 1)), Ee. destruct (Nat.eq_dec (e - 1) q) as [E|Hn].
  - subst q. rewrite Hq in Ee. injection Ee as <-. rewrite Hc. f_equal. lia.
  - rewrite (Hall (e - 1) d ltac:(lia) Ee). apply (IH (e - 1) q c); try assumption; try lia. intros k x Hk; apply Hall; lia.
Qed.
Lemma strip_start_cases chars s : forall fuel a, a <= List.length s -> List.length s - a < fuel ->
  strip_start chars fuel s (Z.of_nat a) = Err IndexError \/
  exists p c, a <= p /\ strip_start chars fuel s (Z.of_nat a) = Ok (Z.of_nat p) /\ nth_error s p = Some c /\ chars c = false.
Proof.
  induction fuel as [|f IH]; intros a Ha Hf; [lia|]. cbn [strip_start]. rewrite zindex_nat.
  destruct (nth_error s a) as [c|] eqn:E; [|left; reflexivity]. assert (a < List.length s) by (apply nth_error_Some; congruence).
  destruct (chars c) eqn:Ec.
  - replace (Z.of_nat a + 1)%Z with (Z.of_nat (S a)) by lia. destruct (IH (S a) ltac:(lia) ltac:(lia)) as [H1|(p & d & H1 & H2)]; [left; exact H1|right].
    exists p, d. split; [lia|exact H2].
  - right. exists a, c. auto.
Qed.
Lemma strip_end_cases chars s : forall fuel e, (e + Z.of_nat (List.length s) < Z.of_nat fuel)%Z -> (e <= Z.of_nat (List.length s))%Z -> (- Z.of_nat (List.length s) <= e)%Z ->
  strip_end chars fuel s e = Err IndexError \/ exists b, (b <= e)%Z /\ strip_end chars fuel s e = Ok b.
Proof.
  induction fuel as [|f IH]; intros e Hf He He2; [lia|]. cbn [strip_end].
  destruct (zindex s (e - 1)) as [c|] eqn:E; [|left; reflexivity].
  assert (- Z.of_nat (List.length s) <= e - 1)%Z.
  { unfold zindex in E. destruct (Z.ltb_spec (e - 1) 0); [|lia]. destruct (Z.leb_spec 0 (Z.of_nat (List.length s) + (e - 1))); [lia|discriminate]. }
  destruct (chars c).
  - destruct (IH (e - 1)%Z ltac:(lia) ltac:(lia) ltac:(lia)) as [H1|(b & H1 & H2)]; [left; exact H1|right]. exists b. split; [lia|exact H2].
  - right. exists e. split; [lia|reflexivity].
Qed.
Lemma strip_end_skip chars s a : forall n fuel, a + n <= List.length s -> (forall k c, a <= k < a + n -> nth_error s k = Some c -> chars c = true) ->
  n <= fuel -> strip_end chars fuel s (Z.of_nat (a + n)) = strip_end chars (fuel - n) s (Z.of_nat a).
Proof.
  induction n as [|n IH]; intros fuel Hl Hall Hf; [rewrite Nat.sub_0_r, Nat.add_0_r; reflexivity|].
  destruct fuel as [|f]; [lia|]. cbn [strip_end]. replace (Z.of_nat (a + S n) - 1)%Z with (Z.of_nat (a + n)) by lia. rewrite zindex_nat.
  destruct (nth_error s (a + n)) as [c|] eqn:E; [|apply nth_error_None in E; lia]. rewrite (Hall (a + n) c ltac:(lia) E).
  apply IH; [lia| |lia]. intros k d Hk; apply Hall; lia.
Qed.
