(** C110: the YAML output says what the guess holds. *)
From Coq Require Import List Bool ZArith Lia.
From Verif Require Import Py PyFacts Json CommandLine Yaml.
Import ListNotations.

(** ** Specification *)

(** What a value of a guess is as a YAML scalar *)
Inductive single_is : single -> scalar -> Prop :=
| is_none : single_is GNone (TNull, lit "null")
| is_true : single_is (GBool true) (TBool, lit "true")
| is_false : single_is (GBool false) (TBool, lit "false")
| is_int z : single_is (GInt z) (TInt, int_repr z)
| is_float t : single_is (GFloat t) (TFloat, t)
| is_str s : single_is (GStr s) (TStr, s)
| is_date t : single_is (GDate t) (TDate, t)
| is_known t : single_is (GKnown t) (TStr, t).
Inductive value_is : value -> node -> Prop :=
| is_one x s : single_is x s -> value_is (One x) (NScalar s)
| is_many l ss : Forall2 single_is l ss -> value_is (Many l) (NSeq ss).

(** Names of properties: small letters, digits and underscores *)
Definition word_char (c : N) : Prop := (97 <= c <= 122)%N \/ (48 <= c <= 57)%N \/ c = 95%N.
Definition property_name (k : str) : Prop := k <> [] /\ Forall word_char k.

(** The lines of a YAML document
<<
    ? name
    : key: scalar
      key:
      - scalar
      - scalar
>>
    [reads ls x]: the lines [ls] are a way to write the scalar [x] ([ls] has the rest of the
    line it begins on, and lines which are blank or begin four columns further). *)
Definition deeper (l : str) : Prop := l = [] \/ exists y, l = lit "    " ++ y.
Section Document.
  Variable reads : list str -> scalar -> Prop.
  Definition scalar_after (before : str) (x : scalar) (ls : list str) : Prop :=
    exists a r, ls = (before ++ a) :: r /\ reads (a :: r) x /\ Forall deeper r.
  Inductive entry_says (pre : str) : str * node -> list str -> Prop :=
  | es_scalar k x ls : scalar_after (pre ++ k ++ lit ": ") x ls -> entry_says pre (k, NScalar x) ls
  | es_empty k : entry_says pre (k, NSeq []) [pre ++ k ++ lit ": []"]
  | es_seq k x l ls : Forall2 (fun x ls => scalar_after (lit "  - ") x ls) (x :: l) ls ->
      entry_says pre (k, NSeq (x :: l)) ((pre ++ k ++ lit ":") :: List.concat ls).
  Definition document (name : str) (entries : list (str * node)) (lines : list str) : Prop :=
    exists t e l1 rest ls, lines = (lit "? " ++ t) :: l1 ++ List.concat ls /\ entries = e :: rest /\
      reads [t] (TStr, name) /\ entry_says (lit ": ") e l1 /\ Forall2 (entry_says (lit "  ")) rest ls.
End Document.

(** ** What is printed *)
Lemma represent_single_is x s : represent_single x = Ok s <-> single_is x s.
Proof.
  split.
  - destruct x; cbn [represent_single]; intros H; try discriminate; injection H as <-; try constructor. destruct b; constructor.
  - intros H; destruct H; reflexivity.
Qed.
Lemma mapM_Forall2' {A B} (f : A -> res B) l r : mapM f l = Ok r -> Forall2 (fun a b => f a = Ok b) l r.
Proof.
  revert r. induction l as [|a l IH]; intros r H; cbn [mapM] in H; [injection H as <-; constructor|].
  destruct (f a) as [b|e] eqn:E; cbn [bind] in H; [|discriminate]. destruct (mapM f l) as [bs|e] eqn:Er; cbn [bind] in H; [|discriminate].
  injection H as <-. constructor; [exact E|apply IH; reflexivity].
Qed.
Lemma represent_is v n : represent v = Ok n -> value_is v n.
Proof.
  destruct v as [x|l]; cbn [represent]; intros H.
  - destruct (represent_single x) as [s|e] eqn:E; cbn [bind] in H; [|discriminate]. injection H as <-. constructor. apply represent_single_is. exact E.
  - destruct (mapM represent_single l) as [ss|e] eqn:E; cbn [bind] in H; [|discriminate]. injection H as <-. constructor.
    apply mapM_Forall2' in E. induction E as [|a b l ss Hab E IH]; constructor; [apply represent_single_is; exact Hab|exact IH].
Qed.

Section Says.
  Variable key_text : scalar -> str.
  Variable lines_of : nat -> scalar -> str * list str.
  Variable reads : list str -> scalar -> Prop.
  Hypothesis key_reads : forall s, simple_key s = true -> reads [key_text (TStr, s)] (TStr, s).
  Hypothesis lines_reads : forall col s, reads (fst (lines_of col s) :: snd (lines_of col s)) s.
  Hypothesis lines_deeper : forall col s, Forall deeper (snd (lines_of col s)).

  Lemma entry_lines_says pre k n : entry_says reads pre (k, n) (entry_lines lines_of pre (k, n)).
  Proof.
    unfold entry_lines. destruct n as [x|[|x l]].
    - constructor. pose proof (lines_reads (List.length (pre ++ k) + 2) x) as H. pose proof (lines_deeper (List.length (pre ++ k) + 2) x) as D.
      destruct (lines_of (List.length (pre ++ k) + 2) x) as [a r]. cbn [fst snd] in H, D. exists a, r.
      split; [rewrite <- !app_assoc; reflexivity|]. split; [exact H|exact D].
    - constructor.
    - constructor. generalize (x :: l). clear x l. induction l as [|x l IH]; cbn [map]; constructor; [|exact IH].
      pose proof (lines_reads 4 x) as H. pose proof (lines_deeper 4 x) as D. destruct (lines_of 4 x) as [a r]. cbn [fst snd] in H, D.
      exists a, r. split; [reflexivity|]. split; [exact H|exact D].
  Qed.
  Lemma entries_say l : Forall2 (entry_says reads (lit "  ")) l (map (entry_lines lines_of (lit "  ")) l).
  Proof. induction l as [|[k n] l IH]; cbn [map]; constructor; [apply entry_lines_says|exact IH]. Qed.
  (** the second line begins with two blanks, or with a colon and a blank: only that changes *)
  Lemma entry_lines_pre k n a r : entry_lines lines_of (lit "  ") (k, n) = a :: r -> entry_lines lines_of (lit ": ") (k, n) = (lit ":" ++ tl a) :: r.
  Proof.
    unfold entry_lines. destruct n as [x|[|x l]].
    - change (List.length (lit ": " ++ k)) with (List.length (lit "  " ++ k)). destruct (lines_of _ x) as [b r']. intros H. injection H as <- <-. reflexivity.
    - intros H. injection H as <- <-. reflexivity.
    - intros H. injection H as <- <-. reflexivity.
  Qed.
  Lemma entry_lines_cons pre e : exists a r, entry_lines lines_of pre e = a :: r.
  Proof.
    destruct e as [k [x|[|x l]]]; unfold entry_lines; [|eexists; eexists; reflexivity|eexists; eexists; reflexivity].
    destruct (lines_of _ x) as [a r]. eexists; eexists; reflexivity.
  Qed.

  (** For a file name of 1 to 122 characters on one line and a guess that holds something:
      the lines printed are a document for that name, with the properties in their order,
      each with its values in their order. *)
  Theorem C110_says name guess lines :
    1 <= List.length name <= 122 -> Forall (fun c => ~ In c [10; 133; 8232; 8233]%N) name -> guess <> [] ->
    yaml_output key_text lines_of name guess = Ok lines ->
    exists entries, document reads name entries lines /\
      Forall2 (fun (kv : str * value) (e : str * node) => fst kv = fst e /\ value_is (snd kv) (snd e)) guess entries.
  Proof.
    intros Hlen Hbr Hne H. unfold yaml_output in H. destruct (represent_guess guess) as [m|e] eqn:Em; cbn [bind] in H; [|discriminate].
    injection H as <-.
    assert (Hs : simple_key name = true).
    { unfold simple_key. apply andb_true_iff. split; [apply andb_true_iff; split|].
      - apply Nat.ltb_lt. lia.
      - apply negb_true_iff. destruct (existsb line_break name) eqn:E; [|reflexivity]. apply existsb_exists in E as (c & Hc & E).
        rewrite Forall_forall in Hbr. exfalso. apply (Hbr c Hc). unfold line_break in E. rewrite !orb_true_iff, !N.eqb_eq in E.
        destruct E as [[[->| ->]| ->]| ->]; [left|right; left|right; right; left|right; right; right; left]; reflexivity.
      - apply negb_true_iff. destruct name; [cbn in Hlen; lia|reflexivity]. }
    apply mapM_Forall2' in Em. exists m. split.
    - unfold dump_lines. rewrite Hs. destruct Em as [|kv e guess' m' He Em]; [congruence|].
      set (key := key_text (TStr, name)). cbn [block]. destruct (entry_lines_cons (lit "  ") e) as (a & r & Ee). rewrite Ee. cbn [app yaml_shown].
      change (lit ":") with [58%N]. rewrite removelast_last.
      exists key, e, (([58%N] ++ tl a) :: r), m', (map (entry_lines lines_of (lit "  ")) m').
      split; [reflexivity|]. split; [reflexivity|]. split; [apply key_reads; exact Hs|]. split; [|apply entries_say].
      destruct e as [k n]. pose proof (entry_lines_pre k n a r Ee) as Hp. change (lit ":") with [58%N] in Hp. rewrite <- Hp. apply entry_lines_says.
    - clear -Em. induction Em as [|[k v] [k' n] guess m H Em IH]; constructor; [|exact IH]. cbn [fst snd] in *.
      destruct (represent v) as [n'|e] eqn:E; cbn [bind] in H; [|discriminate]. injection H as <- <-. split; [reflexivity|]. apply represent_is. exact E.
  Qed.

  Lemma entry_lines_colon e : exists a r, entry_lines lines_of (lit ": ") e = (lit ":" ++ a) :: r.
  Proof.
    destruct e as [k [x|[|x l]]]; unfold entry_lines; [|exists (lit " " ++ k ++ lit ": []"), []; reflexivity|eexists (lit " " ++ k ++ lit ":"); eexists; reflexivity].
    destruct (lines_of _ x) as [b r]. exists (lit " " ++ k ++ lit ": " ++ b), r. reflexivity.
  Qed.
  (** A name of more than 122 characters is cut: it is printed after a second question mark and
      without its last character; the properties follow as above. *)
  Theorem C110_long name guess t :
    122 < List.length name -> lines_of 2 (TStr, name) = (t, []) -> t <> [] ->
    forall lines, guess <> [] -> yaml_output key_text lines_of name guess = Ok lines ->
    exists e l1 rest ls, lines = (lit "? ? " ++ removelast t) :: l1 ++ List.concat ls /\ entry_says reads (lit ": ") e l1 /\ Forall2 (entry_says reads (lit "  ")) rest ls /\
      Forall2 (fun (kv : str * value) (e : str * node) => fst kv = fst e /\ value_is (snd kv) (snd e)) guess (e :: rest).
  Proof.
    intros Hl Ht Hne lines Hg H. unfold yaml_output in H. destruct (represent_guess guess) as [m|x] eqn:Em; cbn [bind] in H; [|discriminate]. injection H as <-.
    apply mapM_Forall2' in Em.
    assert (Hv : Forall2 (fun (kv : str * value) (e : str * node) => fst kv = fst e /\ value_is (snd kv) (snd e)) guess m).
    { clear -Em. induction Em as [|[k v] [k' n] guess m H Em IH]; constructor; [|exact IH]. cbn [fst snd] in *.
      destruct (represent v) as [n'|e] eqn:E; cbn [bind] in H; [|discriminate]. injection H as <- <-. split; [reflexivity|]. apply represent_is. exact E. }
    clear Em. destruct m as [|e m]; [inversion Hv; congruence|]. unfold dump_lines.
    assert (Hs : simple_key name = false). { unfold simple_key. replace (List.length name + 5 <? 128) with false; [reflexivity|]. symmetry. apply Nat.ltb_ge. lia. }
    rewrite Hs, Ht. destruct t as [|c t]; [congruence|].
    assert (Hr : removelast (lit "? " ++ c :: t) = lit "? " ++ removelast (c :: t)) by (apply removelast_app; discriminate).
    exists e, (entry_lines lines_of (lit ": ") e), m, (map (entry_lines lines_of (lit "  ")) m).
    split; [|split; [destruct e as [k n]; apply entry_lines_says|split; [apply entries_say|exact Hv]]].
    cbn [app block]. destruct (entry_lines_colon e) as (a & r & Ee). rewrite Ee. cbn [app yaml_shown]. rewrite Hr. reflexivity.
  Qed.
  (** A guess that holds nothing is printed as an opened, never closed, bracket. *)
  Theorem C110_nothing name : simple_key name = true ->
    yaml_output key_text lines_of name [] = Ok [lit "? " ++ key_text (TStr, name) ++ lit ": {"].
  Proof.
    intros Hs. unfold yaml_output. cbn [represent_guess mapM bind]. unfold dump_lines. rewrite Hs. cbn [yaml_shown].
    rewrite removelast_app by discriminate. reflexivity.
  Qed.
End Says.
Print Assumptions C110_says.
Print Assumptions C110_long.
Print Assumptions C110_nothing.

(** It fails exactly on an object that has no representer. *)
Theorem C110_fails key_text lines_of name guess :
  (exists e, yaml_output key_text lines_of name guess = Err e) <->
  (exists k v, In (k, v) guess /\ (v = One GOther \/ exists l, v = Many l /\ In GOther l)).
Proof.
  assert (Hs : forall x, (exists e, represent_single x = Err e) <-> x = GOther).
  { intros x. split; [intros (e & H); destruct x; cbn in H; congruence|intros ->; eexists; reflexivity]. }
  assert (Hm : forall A B (f : A -> res B) l, (exists e, mapM f l = Err e) <-> exists a, In a l /\ exists e, f a = Err e).
  { intros A B f. induction l as [|a l IH]; cbn [mapM]; [split; [intros (e & H); discriminate|intros (a & [] & _)]|].
    destruct (f a) as [b|x] eqn:E; cbn [bind].
    - destruct (mapM f l) as [bs|x] eqn:Er; cbn [bind].
      + split; [intros (e & H); discriminate|]. intros (c & [<-|Hc] & e & H); [congruence|]. exfalso.
        destruct (proj2 IH (ex_intro _ c (conj Hc (ex_intro _ e H)))) as (x & Hx). discriminate.
      + split; [intros _|intros _; exists x; reflexivity]. destruct (proj1 IH (ex_intro _ x eq_refl)) as (c & Hc & H). exists c. split; [right; exact Hc|exact H].
    - split; [intros _; exists a; split; [left; reflexivity|exists x; exact E]|intros _; exists x; reflexivity]. }
  assert (Hv : forall v, (exists e, represent v = Err e) <-> (v = One GOther \/ exists l, v = Many l /\ In GOther l)).
  { intros [x|l]; cbn [represent].
    - specialize (Hs x). destruct (represent_single x) as [s|e]; cbn [bind].
      + split; [intros (e & H); discriminate|]. intros [H|(l & H & _)]; [|discriminate]. injection H as ->. destruct (proj2 Hs eq_refl) as (e & H). discriminate.
      + split; [intros _; left; f_equal; apply Hs; exists e; reflexivity|intros _; exists e; reflexivity].
    - specialize (Hm _ _ represent_single l). destruct (mapM represent_single l) as [ss|e]; cbn [bind].
      + split; [intros (e & H); discriminate|]. intros [H|(l' & H & Hin)]; [discriminate|]. injection H as <-.
        destruct (proj2 Hm) as (e & H); [|discriminate]. exists GOther. split; [exact Hin|eexists; reflexivity].
      + split; [intros _|intros _; exists e; reflexivity]. right. exists l. split; [reflexivity|].
        destruct (proj1 Hm (ex_intro _ e eq_refl)) as (a & Ha & He). apply Hs in He as ->. exact Ha. }
  unfold yaml_output, represent_guess. pose proof (Hm _ _ (fun kv : str * value => n <- represent (snd kv); Ok (fst kv, n)) guess) as H.
  destruct (mapM _ guess) as [m|e]; cbn [bind].
  - split; [intros (e & E); discriminate|]. intros (k & v & Hin & Hx). destruct (proj2 H) as (e & E); [|discriminate].
    exists (k, v). split; [exact Hin|]. cbn [fst snd]. apply Hv in Hx as (e & ->). exists e. reflexivity.
  - split; [intros _|intros _; exists e; reflexivity]. destruct (proj1 H (ex_intro _ e eq_refl)) as ([k v] & Hin & x & E). cbn [fst snd] in E.
    exists k, v. split; [exact Hin|]. apply Hv. destruct (represent v) as [n|y]; cbn [bind] in E; [discriminate|]. exists y. reflexivity.
Qed.
Print Assumptions C110_fails.

(** ** A document says one thing only *)
Section Unique.
  Variable reads : list str -> scalar -> Prop.
  Hypothesis one_reading : forall ls x y, reads ls x -> reads ls y -> x = y.
  (** an empty list is not a way to write a scalar *)
  Hypothesis not_list : forall a r x, reads (a :: r) x -> a <> lit "[]".

  Definition item (l : str) : Prop := exists y, l = lit "  - " ++ y.
  Definition key_line (pre l : str) : Prop := exists k y, property_name k /\ l = pre ++ k ++ lit ":" ++ y.
  Definition at_key (ls : list str) : Prop := match ls with [] => True | l :: _ => key_line (lit "  ") l end.

  Lemma key_line_third l : key_line (lit "  ") l -> exists c y, word_char c /\ l = 32%N :: 32%N :: c :: y.
  Proof. intros (k & y & (Hne & Hw) & ->). destruct k as [|c k]; [congruence|]. inversion Hw as [|? ? Hc _]; subst. exists c, (k ++ lit ":" ++ y). split; [exact Hc|reflexivity]. Qed.
  Lemma key_not_deeper l : key_line (lit "  ") l -> ~ deeper l.
  Proof. intros H. apply key_line_third in H as (c & y & Hc & ->). intros [H|(z & H)]; [discriminate|]. injection H as -> _. destruct Hc as [Hc|[Hc|Hc]]; lia. Qed.
  Lemma key_not_item l : key_line (lit "  ") l -> ~ item l.
  Proof. intros H. apply key_line_third in H as (c & y & Hc & ->). intros (z & H). injection H as -> _. destruct Hc as [Hc|[Hc|Hc]]; lia. Qed.
  Lemma item_not_deeper l : item l -> ~ deeper l.
  Proof. intros (y & ->) [H|(z & H)]; discriminate. Qed.
  Definition settled (ls : list str) : Prop := match ls with [] => True | l :: _ => ~ deeper l end.
  Lemma span_unique r1 r2 t1 t2 : Forall deeper r1 -> Forall deeper r2 -> settled t1 -> settled t2 -> r1 ++ t1 = r2 ++ t2 -> r1 = r2 /\ t1 = t2.
  Proof.
    intros H1. revert r2. induction H1 as [|x r1 Hx H1 IH]; intros r2 H2 S1 S2 E.
    - destruct H2 as [|y r2 Hy H2]; [split; [reflexivity|exact E]|]. exfalso. cbn [app] in E. subst t1. apply S1. exact Hy.
    - destruct H2 as [|y r2 Hy H2].
      + exfalso. cbn [app] in E. subst t2. apply S2. exact Hx.
      + cbn [app] in E. injection E as -> E. destruct (IH r2 H2 S1 S2 E) as (-> & ->). split; reflexivity.
  Qed.
  Lemma scalar_unique b x y l1 l2 t1 t2 : scalar_after reads b x l1 -> scalar_after reads b y l2 -> settled t1 -> settled t2 ->
    l1 ++ t1 = l2 ++ t2 -> x = y /\ t1 = t2.
  Proof.
    intros (a & r & -> & R1 & D1) (a' & r' & -> & R2 & D2) S1 S2 E. cbn [app] in E. injection E as Ea E. apply app_inv_head in Ea as <-.
    destruct (span_unique r r' t1 t2 D1 D2 S1 S2 E) as (<- & <-). split; [|reflexivity]. apply (one_reading _ _ _ R1 R2).
  Qed.
  Definition no_item (ls : list str) : Prop := settled ls /\ match ls with [] => True | l :: _ => ~ item l end.
  Lemma at_key_no_item ls : at_key ls -> no_item ls.
  Proof. destruct ls as [|l ls]; intros H; [split; exact I|]. split; [apply key_not_deeper; exact H|apply key_not_item; exact H]. Qed.
  Lemma items_settled l ls t : Forall2 (fun x ls => scalar_after reads (lit "  - ") x ls) l ls -> settled t -> settled (List.concat ls ++ t).
  Proof.
    intros H S. destruct H as [|x g l ls (a & r & -> & _) H]; [exact S|]. cbn [List.concat app settled]. apply item_not_deeper. exists a. reflexivity.
  Qed.
  Lemma items_unique l1 : forall l2 ls1 ls2 t1 t2,
    Forall2 (fun x ls => scalar_after reads (lit "  - ") x ls) l1 ls1 -> Forall2 (fun x ls => scalar_after reads (lit "  - ") x ls) l2 ls2 ->
    no_item t1 -> no_item t2 -> List.concat ls1 ++ t1 = List.concat ls2 ++ t2 -> l1 = l2 /\ t1 = t2.
  Proof.
    induction l1 as [|x l1 IH]; intros l2 ls1 ls2 t1 t2 H1 H2 N1 N2 E.
    - inversion H1; subst. destruct H2 as [|y g l2 ls2 (a & r & -> & _) H2]; [split; [reflexivity|exact E]|]. exfalso.
      cbn [List.concat app] in E. subst t1. apply (proj2 N1). exists a. reflexivity.
    - inversion H1 as [|? g1 ? ls1' Hx H1']; subst. destruct H2 as [|y g2 l2 ls2 Hy H2].
      + exfalso. destruct Hx as (a & r & -> & _). cbn [List.concat app] in E. subst t2. apply (proj2 N2). exists a. reflexivity.
      + cbn [List.concat] in E. rewrite <- !app_assoc in E.
        destruct (scalar_unique _ _ _ _ _ _ _ Hx Hy (items_settled _ _ _ H1' (proj1 N1)) (items_settled _ _ _ H2 (proj1 N2)) E) as (<- & E').
        destruct (IH l2 ls1' ls2 t1 t2 H1' H2 N1 N2 E') as (<- & <-). split; reflexivity.
  Qed.
  Lemma key_unique k : forall k' y y', Forall word_char k -> Forall word_char k' -> k ++ lit ":" ++ y = k' ++ lit ":" ++ y' -> k = k' /\ y = y'.
  Proof.
    induction k as [|c k IH]; intros [|c' k'] y y' H H' E.
    - injection E as E. split; [reflexivity|exact E].
    - exfalso. injection E as <- _. inversion H' as [|? ? Hc _]; subst. destruct Hc as [Hc|[Hc|Hc]]; lia.
    - exfalso. injection E as -> _. inversion H as [|? ? Hc _]; subst. destruct Hc as [Hc|[Hc|Hc]]; lia.
    - cbn [app] in E. injection E as <- E. inversion H; inversion H'; subst. destruct (IH k' y y') as (<- & <-); try assumption. split; reflexivity.
  Qed.
  Lemma entry_unique pre e1 e2 l1 l2 t1 t2 : property_name (fst e1) -> property_name (fst e2) ->
    entry_says reads pre e1 l1 -> entry_says reads pre e2 l2 -> at_key t1 -> at_key t2 -> l1 ++ t1 = l2 ++ t2 -> e1 = e2 /\ t1 = t2.
  Proof.
    intros (_ & W1) (_ & W2) H1 H2 K1 K2 E. pose proof (at_key_no_item _ K1) as N1. pose proof (at_key_no_item _ K2) as N2.
    destruct H1 as [k x g Hg|k|k x l ls Hl], H2 as [k' x' g' Hg'|k'|k' x' l' ls' Hl']; cbn [fst] in W1, W2.
    - assert (k = k').
      { pose proof Hg as (a & r & Eg & _). pose proof Hg' as (a' & r' & Eg' & _). subst g g'. cbn [app] in E. injection E as E _.
        rewrite <- !app_assoc in E. apply app_inv_head in E. apply (key_unique k k' (lit " " ++ a) (lit " " ++ a') W1 W2) in E. apply (proj1 E). }
      subst k'. destruct (scalar_unique _ _ _ _ _ _ _ Hg Hg' (proj1 N1) (proj1 N2) E) as (<- & <-). split; reflexivity.
    - exfalso. destruct Hg as (a & r & -> & R & _). cbn [app] in E. injection E as E _. rewrite <- !app_assoc in E. apply app_inv_head in E.
      apply (key_unique k k' (lit " " ++ a) (lit " []") W1 W2) in E as (_ & E). injection E as E. apply (not_list _ _ _ R). exact E.
    - exfalso. destruct Hg as (a & r & -> & R & _). cbn [app] in E. injection E as E _. rewrite <- !app_assoc in E. apply app_inv_head in E.
      apply (key_unique k k' (lit " " ++ a) [] W1 W2) in E as (_ & E). discriminate.
    - exfalso. destruct Hg' as (a & r & -> & R & _). cbn [app] in E. injection E as E _. rewrite <- !app_assoc in E. apply app_inv_head in E.
      apply (key_unique k k' (lit " []") (lit " " ++ a) W1 W2) in E as (_ & E). injection E as E. apply (not_list _ _ _ R). symmetry. exact E.
    - cbn [app] in E. injection E as E Et. apply app_inv_head in E. apply (key_unique k k' (lit " []") (lit " []") W1 W2) in E as (<- & _). split; [reflexivity|exact Et].
    - exfalso. cbn [app] in E. injection E as E _. apply app_inv_head in E. apply (key_unique k k' (lit " []") [] W1 W2) in E as (_ & E). discriminate.
    - exfalso. destruct Hg' as (a & r & -> & R & _). cbn [app] in E. injection E as E _. rewrite <- !app_assoc in E. apply app_inv_head in E.
      apply (key_unique k k' [] (lit " " ++ a) W1 W2) in E as (_ & E). discriminate.
    - exfalso. cbn [app] in E. injection E as E _. apply app_inv_head in E. apply (key_unique k k' [] (lit " []") W1 W2) in E as (_ & E). discriminate.
    - cbn [app] in E. injection E as E Et. apply app_inv_head in E. apply (key_unique k k' [] [] W1 W2) in E as (<- & _).
      destruct (items_unique _ _ _ _ _ _ Hl Hl' N1 N2 Et) as (El & <-). split; [|reflexivity]. rewrite El. reflexivity.
  Qed.
  Lemma entries_at_key l : forall ls, Forall (fun e : str * node => property_name (fst e)) l -> Forall2 (entry_says reads (lit "  ")) l ls -> at_key (List.concat ls).
  Proof.
    intros ls Hp H. destruct H as [|e g l ls He H]; [exact I|]. inversion Hp as [|? ? Hk _]; subst.
    destruct He as [k x g (a & r & -> & _)|k|k x l' ls' _]; cbn [List.concat app at_key fst] in *.
    - exists k, (lit " " ++ a). split; [exact Hk|]. rewrite <- !app_assoc. reflexivity.
    - exists k, (lit " []"). split; [exact Hk|reflexivity].
    - exists k, []. split; [exact Hk|]. rewrite app_nil_r. reflexivity.
  Qed.
  Lemma rest_unique l1 : forall l2 ls1 ls2, Forall (fun e : str * node => property_name (fst e)) l1 -> Forall (fun e : str * node => property_name (fst e)) l2 ->
    Forall2 (entry_says reads (lit "  ")) l1 ls1 -> Forall2 (entry_says reads (lit "  ")) l2 ls2 -> List.concat ls1 = List.concat ls2 -> l1 = l2.
  Proof.
    assert (Hne : forall pre e g, entry_says reads pre e g -> g <> []).
    { intros pre e g [k x l (a & r & -> & _)|k|k x l ls _]; discriminate. }
    induction l1 as [|e l1 IH]; intros l2 ls1 ls2 P1 P2 H1 H2 E.
    - inversion H1; subst. destruct H2 as [|e2 g2 l2 ls2 He2 H2]; [reflexivity|]. exfalso. apply (Hne _ _ _ He2). cbn [List.concat] in E.
      symmetry in E. apply app_eq_nil in E as (E & _). exact E.
    - inversion H1 as [|? g1 ? ls1' He H1']; subst. destruct H2 as [|e2 g2 l2 ls2 He2 H2].
      + exfalso. apply (Hne _ _ _ He). cbn [List.concat] in E. apply app_eq_nil in E as (E & _). exact E.
      + cbn [List.concat] in E. inversion P1 as [|? ? Pe P1']; inversion P2 as [|? ? Pe2 P2']; subst.
        destruct (entry_unique _ _ _ _ _ _ _ Pe Pe2 He He2 (entries_at_key _ _ P1' H1') (entries_at_key _ _ P2' H2) E) as (<- & E'). f_equal.
        apply (IH l2 ls1' ls2); assumption.
  Qed.

  Theorem C110_unique name name' es es' lines :
    Forall (fun e : str * node => property_name (fst e)) es -> Forall (fun e : str * node => property_name (fst e)) es' ->
    document reads name es lines -> document reads name' es' lines -> name = name' /\ es = es'.
  Proof.
    intros P P' (t & e & l1 & rest & ls & -> & -> & R & He & Hr) (t' & e' & l1' & rest' & ls' & E & -> & R' & He' & Hr').
    injection E as Et E. change (lit "? ") with ([63; 32]%N) in *. subst t'.
    pose proof (one_reading _ _ _ R R') as En. injection En as <-. split; [reflexivity|].
    inversion P as [|? ? Pe Pr]; inversion P' as [|? ? Pe' Pr']; subst.
    destruct (entry_unique _ _ _ _ _ _ _ Pe Pe' He He' (entries_at_key _ _ Pr Hr) (entries_at_key _ _ Pr' Hr') E) as (<- & E'). f_equal.
    apply (rest_unique _ _ _ _ Pr Pr' Hr Hr' E').
  Qed.
End Unique.
Print Assumptions C110_unique.

(** An example of a writer that meets the hypotheses: scalars with their tags. *)
Definition tag_char (t : ytag) : N :=
  match t with TStr => 115 | TInt => 105 | TFloat => 102 | TBool => 98 | TNull => 110 | TDate => 100 end%N.
Definition tagged (s : scalar) : str := [33%N; tag_char (fst s); 32%N] ++ snd s.
Definition tagged_reads (ls : list str) (s : scalar) : Prop := ls = [tagged s].
Example tagged_ok : (forall s, simple_key s = true -> tagged_reads [tagged (TStr, s)] (TStr, s)) /\
  (forall (col : nat) s, tagged_reads [tagged s] s) /\
  (forall ls x y, tagged_reads ls x -> tagged_reads ls y -> x = y) /\
  (forall a r x, tagged_reads (a :: r) x -> a <> lit "[]").
Proof.
  split; [reflexivity|]. split; [reflexivity|]. split.
  - intros ls [tx x] [ty y] -> E. injection E as Et E. subst y. destruct tx, ty; try discriminate; reflexivity.
  - intros a r x E. injection E as -> _. discriminate.
Qed.
(** With plain scalars, as PyYAML writes these: *)
Example yaml_shows : yaml_output snd (fun _ s => (snd s, [])) (lit "Show.S01E02.E03.fr.mkv")
  [(lit "title", One (GStr (lit "Show"))); (lit "season", One (GInt 1)); (lit "episode", Many [GInt 2; GInt 3]); (lit "language", One (GKnown (lit "fr")))]
  = Ok [lit "? Show.S01E02.E03.fr.mkv"; lit ": title: Show"; lit "  season: 1"; lit "  episode:"; lit "  - 2"; lit "  - 3"; lit "  language: fr"].
Proof. vm_compute. reflexivity. Qed.
Example yaml_long : yaml_output snd (fun _ s => (snd s, [])) (repeat 97%N 123) [(lit "type", One (GStr (lit "movie")))]
  = Ok [lit "? ? " ++ repeat 97%N 122; lit ": type: movie"].
Proof. vm_compute. reflexivity. Qed.
