(** C14, C25, C51 (first half), C52 *)
From Coq Require Import ZifyBool ZifyNat ZifyN.
From Verif Require Import Py PyFacts Text TextFacts Formatters FormattersProofs Common CommonProofs.

(** * C14 *)
(** C14: with lists of names, a property is disabled iff it is excluded, or some properties are
    included and it is not one of them; exclusion wins over inclusion. *)
Theorem C14_is_disabled : forall context excludes includes name,
  oget (dget context (KS (lit "excludes"))) = VList (map VStr excludes) ->
  oget (dget context (KS (lit "includes"))) = VList (map VStr includes) ->
  exists b, is_disabled context name = Ok b /\
    (b = true <-> In name excludes \/ (includes <> [] /\ ~ In name includes)).
Proof.
  intros context ex inc name He Hi. unfold is_disabled. rewrite He, Hi.
  assert (Hin : forall l, py_in (VStr name) (map VStr l) = smem name l).
  { induction l as [|x l IH]; [reflexivity|]. unfold py_in, smem in *. cbn [map existsb]. rewrite IH. f_equal. cbn [py_eq].
    destruct (str_eqb_spec x name) as [->|Hn]; [symmetry; apply str_eqb_refl|]. destruct (str_eqb_spec name x); congruence. }
  assert (Hx : (if truthy (VList (map VStr ex)) then contains (VList (map VStr ex)) name else Ok false) = Ok (smem name ex)).
  { destruct ex as [|e ex]; [reflexivity|]. cbn [truthy map contains]. f_equal. exact (Hin (e :: ex)). }
  rewrite Hx. cbn [bind]. destruct (smem name ex) eqn:Ex.
  - exists true. split; [reflexivity|]. apply smem_In in Ex. tauto.
  - assert (~ In name ex) by (intros H; apply smem_In in H; congruence).
    destruct inc as [|i inc].
    + exists false. split; [reflexivity|]. split; [discriminate|]. intros [H0|[H0 _]]; [contradiction|congruence].
    + exists (negb (smem name (i :: inc))). split.
      * cbn [truthy map contains res_map]. f_equal. f_equal. exact (Hin (i :: inc)).
      * rewrite Bool.negb_true_iff. split.
        -- intros H1. right. split; [discriminate|]. intros H2. apply smem_In in H2. congruence.
        -- intros [H1|[_ H1]]; [contradiction|]. destruct (smem name (i :: inc)) eqn:Ei; [|reflexivity]. apply smem_In in Ei. contradiction.
Qed.
Print Assumptions C14_is_disabled.
(** C14: without either option nothing is disabled. *)
Theorem C14_default_enabled : forall context name,
  otruthy (dget context (KS (lit "excludes"))) = false -> otruthy (dget context (KS (lit "includes"))) = false ->
  is_disabled context name = Ok false.
Proof.
  intros context name He Hi. unfold is_disabled.
  assert (E : forall o, otruthy o = false -> truthy (oget o) = false) by (intros [v|] H; [exact H|reflexivity]).
  rewrite (E _ He), (E _ Hi). reflexivity.
Qed.
Print Assumptions C14_default_enabled.
(** C14, limit: with a single text instead of a list, excluding one property also excludes every
    property whose name is part of it. *)
Theorem C14_text_is_substring_refuted : exists context,
  dget context (KS (lit "excludes")) = Some (VStr (lit "episode_title")) /\
  is_disabled context (lit "title") = Ok true /\ is_disabled context (lit "episode") = Ok true.
Proof. exists [(KS (lit "excludes"), VStr (lit "episode_title"))]. repeat split. Qed.
Print Assumptions C14_text_is_substring_refuted.
Example ex_disabled : is_disabled [(KS (lit "excludes"), VList [VStr (lit "title")]); (KS (lit "includes"), VList [VStr (lit "title"); VStr (lit "year")])] (lit "title") = Ok true
  /\ is_disabled [(KS (lit "includes"), VList [VStr (lit "title"); VStr (lit "year")])] (lit "year") = Ok false
  /\ is_disabled [(KS (lit "includes"), VList [VStr (lit "title"); VStr (lit "year")])] (lit "season") = Ok true.
Proof. repeat split. Qed.

(** * C52 *)
(** C52: [and_]: true iff all accept; otherwise decided by the first one that does not. *)
Theorem C52_and : forall A (vs : list (A -> res bool)) x r,
  and_ vs x = r <->
  (r = Ok true /\ Forall (fun v => v x = Ok true) vs) \/
  (exists before v after, vs = before ++ v :: after /\ Forall (fun w => w x = Ok true) before /\ v x = r /\ r <> Ok true).
Proof.
  intros A vs x r. induction vs as [|v vs IH]; cbn [and_].
  - split; [intros <-; left; split; [reflexivity|constructor]|]. intros [[-> _]|(b & v & a & E & _)]; [reflexivity|destruct b; discriminate].
  - destruct (v x) as [[]|e] eqn:Ev; cbn [bind].
    + rewrite IH. split.
      * intros [[-> H]|(b & w & a & -> & H1 & H2 & H3)]; [left; auto|right]. exists (v :: b), w, a. auto.
      * intros [[-> H]|(b & w & a & E & H1 & H2 & H3)]; [left; split; [reflexivity|inversion H; assumption]|right].
        destruct b as [|w' b]; [injection E as -> ->; congruence|]. injection E as -> ->. exists b, w, a. inversion H1; auto.
    + split.
      * intros <-. right. exists [], v, vs. repeat split; auto. discriminate.
      * intros [[-> H]|(b & w & a & E & H1 & H2 & H3)]; [inversion H; congruence|].
        destruct b as [|w' b]; [injection E as -> ->; congruence|]. injection E as -> ->. inversion H1; congruence.
    + split.
      * intros <-. right. exists [], v, vs. repeat split; auto. discriminate.
      * intros [[-> H]|(b & w & a & E & H1 & H2 & H3)]; [inversion H; congruence|].
        destruct b as [|w' b]; [injection E as -> ->; congruence|]. injection E as -> ->. inversion H1; congruence.
Qed.
Print Assumptions C52_and.
(** C52: [or_]: false iff all refuse; otherwise decided by the first one that does not. *)
Theorem C52_or : forall A (vs : list (A -> res bool)) x r,
  or_ vs x = r <->
  (r = Ok false /\ Forall (fun v => v x = Ok false) vs) \/
  (exists before v after, vs = before ++ v :: after /\ Forall (fun w => w x = Ok false) before /\ v x = r /\ r <> Ok false).
Proof.
  intros A vs x r. induction vs as [|v vs IH]; cbn [or_].
  - split; [intros <-; left; split; [reflexivity|constructor]|]. intros [[-> _]|(b & v & a & E & _)]; [reflexivity|destruct b; discriminate].
  - destruct (v x) as [[]|e] eqn:Ev; cbn [bind].
    + split.
      * intros <-. right. exists [], v, vs. repeat split; auto. discriminate.
      * intros [[-> H]|(b & w & a & E & H1 & H2 & H3)]; [inversion H; congruence|].
        destruct b as [|w' b]; [injection E as -> ->; congruence|]. injection E as -> ->. inversion H1; congruence.
    + rewrite IH. split.
      * intros [[-> H]|(b & w & a & -> & H1 & H2 & H3)]; [left; auto|right]. exists (v :: b), w, a. auto.
      * intros [[-> H]|(b & w & a & E & H1 & H2 & H3)]; [left; split; [reflexivity|inversion H; assumption]|right].
        destruct b as [|w' b]; [injection E as -> ->; congruence|]. injection E as -> ->. exists b, w, a. inversion H1; auto.
    + split.
      * intros <-. right. exists [], v, vs. repeat split; auto. discriminate.
      * intros [[-> H]|(b & w & a & E & H1 & H2 & H3)]; [inversion H; congruence|].
        destruct b as [|w' b]; [injection E as -> ->; congruence|]. injection E as -> ->. inversion H1; congruence.
Qed.
Print Assumptions C52_or.
Example ex_and : and_ [fun n => Ok (3 <? n); fun n => if n =? 5 then Err ValueError else Ok true] 2 = Ok false
  /\ and_ [fun n => Ok (3 <? n); fun n => if n =? 5 then Err ValueError else Ok true] 5 = Err ValueError
  /\ or_ [fun n => Ok (3 <? n); fun n => if n =? 5 then Err ValueError else Ok true] 5 = Ok true.
Proof. repeat split. Qed.

(** * C25 *)
(** C25: the pattern is a group of the alternatives joined with [|]. *)
Theorem C25_shape : forall p ps name,
  build_or_pattern (p :: ps) (Some name) false = (if match name with [] => true | _ => false end then lit "(?:" else lit "(?P<" ++ name ++ lit ">") ++ concat_with (lit "|") (p :: ps) ++ lit ")" /\
  build_or_pattern (p :: ps) None false = lit "(?:" ++ concat_with (lit "|") (p :: ps) ++ lit ")" /\
  build_or_pattern (p :: ps) None true = lit "(?:" ++ concat_with (lit "|") (map (fun q => lit "(?:" ++ re_escape q ++ lit ")") (p :: ps)) ++ lit ")".
Proof.
  intros p ps name. unfold build_or_pattern, concat_with. split; [|split].
  - destruct name as [|c n]; rewrite <- ?app_assoc; reflexivity.
  - rewrite <- !app_assoc. reflexivity.
  - cbn [map]. rewrite <- !app_assoc.
    assert (E : flat_map (fun y => lit "|" ++ y) (map (fun q => lit "(?:" ++ re_escape q ++ lit ")") ps) =
                flat_map (fun q => lit "|" ++ lit "(?:" ++ re_escape q ++ lit ")") ps).
    { induction ps as [|q ps IH]; [reflexivity|]. cbn [map flat_map]. rewrite IH. reflexivity. }
    rewrite E. reflexivity.
Qed.
Print Assumptions C25_shape.
(** C25: balanced alternatives give a balanced pattern; escaped ones always do. *)
Theorem C25_balanced : forall ps name escape, ps <> [] ->
  match name with Some n => plain_name n | None => True end ->
  (escape = false -> Forall balanced ps) -> balanced (build_or_pattern ps name escape).
Proof. exact or_balanced. Qed.
Print Assumptions C25_balanced.
Example ex_or : build_or_pattern [lit "a(b)"; lit "c\)"] (Some (lit "n")) false = lit "(?P<n>a(b)|c\))"
  /\ Forall balanced [lit "a(b)"; lit "c\)"] /\ plain_name (lit "n") /\ build_or_pattern [lit "a("] None true = lit "(?:(?:a\())".
Proof. split; [reflexivity|]. split; [repeat constructor|]. split; [|reflexivity]. intros c [<-|[]]. repeat split; discriminate. Qed.
(** C25, limit: no alternative gives an unbalanced pattern. *)
Theorem C25_empty_refuted : forall name escape, build_or_pattern [] name escape = lit ")" /\ ~ balanced (build_or_pattern [] name escape).
Proof. intros. split; [reflexivity|]. intros H. discriminate H. Qed.
Print Assumptions C25_empty_refuted.

(** * C51, [match_processors.strip] *)
(** C51: a match containing a character that is not stripped becomes the part of it from the first
    such character to the last one. *)
Theorem C51_strip : forall chars s a e p q, a <= p <= q -> q < e -> e <= List.length s ->
  (exists c, nth_error s p = Some c /\ chars c = false) -> (exists c, nth_error s q = Some c /\ chars c = false) ->
  (forall k c, a <= k < p \/ q < k < e -> nth_error s k = Some c -> chars c = true) ->
  mp_strip chars s (Z.of_nat a) (Z.of_nat e) = Ok (Z.of_nat p, Z.of_nat (S q), true).
Proof.
  intros chars s a e p q Hap Hqe Hel (c & Hp & Hc) (d & Hq & Hd) Hall. unfold mp_strip.
  rewrite (strip_start_ok chars s _ a p c); try assumption; try lia; [|intros k x Hk; apply Hall; left; exact Hk].
  rewrite (strip_end_ok chars s _ e q d); try assumption; try lia; [|intros k x Hk; apply Hall; right; exact Hk].
  cbn [bind]. destruct (Z.ltb_spec (Z.of_nat (S q)) (Z.of_nat p)); [lia|]. destruct (Z.ltb_spec (Z.of_nat p) (Z.of_nat (S q))); [reflexivity|lia].
Qed.
Print Assumptions C51_strip.
(** C51, limit: a non-empty match of separators only always raises: it is never reported as empty. *)
Theorem C51_strip_all_separators_raises : forall chars s a e, a < e <= List.length s ->
  (forall k c, a <= k < e -> nth_error s k = Some c -> chars c = true) ->
  mp_strip chars s (Z.of_nat a) (Z.of_nat e) = Err IndexError \/ mp_strip chars s (Z.of_nat a) (Z.of_nat e) = Err ValueError.
Proof.
  intros chars s a e Hae Hall. unfold mp_strip. set (fuel := 2 * List.length s + 2).
  destruct (strip_start_cases chars s fuel a ltac:(lia) ltac:(lia)) as [->|(p & c & Hp & -> & Hc & Hs)]; [left; reflexivity|]. cbn [bind].
  assert (Hpe : e <= p). { destruct (Nat.lt_ge_cases p e); [|assumption]. rewrite (Hall p c ltac:(lia) Hc) in Hs. discriminate. }
  replace e with (a + (e - a)) at 1 2 by lia. rewrite (strip_end_skip chars s a (e - a) fuel); [|lia|intros k x Hk; apply Hall; lia|lia].
  destruct (strip_end_cases chars s (fuel - (e - a)) (Z.of_nat a) ltac:(lia) ltac:(lia) ltac:(lia)) as [->|(b & Hb & ->)]; [left; reflexivity|].
  cbn [bind]. right. destruct (Z.ltb_spec b (Z.of_nat p)); [reflexivity|lia].
Qed.
Print Assumptions C51_strip_all_separators_raises.
Example ex_strip : mp_strip is_sep (lit "a.-bc-.d") 1 7 = Ok (3, 5, true)%Z /\ mp_strip is_sep (lit "a--b") 1 3 = Err ValueError /\ mp_strip is_sep (lit "a--") 1 3 = Err IndexError.
Proof. repeat split. Qed.

(** C25: an escaped alternative stands for its own characters. [reads s]: the text matched by the expression [s] if it is made of
    ordinary characters and of characters quoted by a backslash only; [None] if it uses any operator of regular expressions. *)
Definition operators : str := lit ".^$*+?{}[]\|()".
Fixpoint reads (s : str) : option str :=
  match s with
  | [] => Some []
  | c :: r =>
      if N.eqb c 92 then
        match r with
        | d :: r' => if is_alpha d || is_digit d then None else option_map (cons d) (reads r')
        | [] => None
        end
      else if cmem c operators then None else option_map (cons c) (reads r)
  end.
Theorem C25_escaped_literal : forall p, reads (re_escape p) = Some p.
Proof.
  induction p as [|c p IH]; [reflexivity|]. unfold re_escape in *. cbn [flat_map].
  destruct (cmem c special_chars) eqn:E.
  - cbn [app reads]. change (N.eqb 92 92) with true. cbn iota. rewrite IH. apply cmem_In in E.
    assert (G : forallb (fun c => negb (is_alpha c || is_digit c)) special_chars = true) by (vm_compute; reflexivity).
    rewrite forallb_forall in G. specialize (G c E). destruct (is_alpha c || is_digit c); [discriminate|reflexivity].
  - assert (O : cmem c operators = false).
    { destruct (cmem c operators) eqn:O; [|reflexivity]. apply cmem_In in O.
      assert (G : forallb (fun c => cmem c special_chars) operators = true) by (vm_compute; reflexivity).
      rewrite forallb_forall in G. rewrite (G c O) in E. discriminate. }
    cbn [app reads]. rewrite O, IH.
    destruct (N.eqb c 92) eqn:B; [|reflexivity]. apply N.eqb_eq in B; subst c. discriminate.
Qed.
Print Assumptions C25_escaped_literal.
Example ex_escaped : re_escape (lit "a|b.c") = lit "a\|b\.c" /\ reads (lit "a|b") = None.
Proof. split; reflexivity. Qed.
