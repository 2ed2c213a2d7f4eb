(** The command line (C46) and the listing of properties (C48). *)
From Verif Require Import Py PyFacts Sort FormattersProofs CommandLine.
From Coq Require Import Arith Sorting.Sorted Sorting.Permutation.

(** ** Specification *)
(** the files asked to the guesser, in order *)
Definition calls (ev : list event) : list val := flat_map (fun e => match e with ECall f => [f] | _ => [] end) ev.
Definition no_eol (l : str) : Prop := ~ In 10%N l /\ ~ In 13%N l.
(** the lines of a text; CR LF is one end of line *)
Inductive lines_of : str -> list str -> Prop :=
| lo_nil : lines_of [] []
| lo_last l : no_eol l -> l <> [] -> lines_of l [l]
| lo_lf l r ls : no_eol l -> lines_of r ls -> lines_of (l ++ [10%N] ++ r) (l :: ls)
| lo_crlf l r ls : no_eol l -> lines_of r ls -> lines_of (l ++ [13%N; 10%N] ++ r) (l :: ls)
| lo_cr l r ls : no_eol l -> (forall r', r <> 10%N :: r') -> lines_of r ls -> lines_of (l ++ [13%N] ++ r) (l :: ls).
(** [x] is [l] without the spaces around *)
Definition trimmed (l x : str) : Prop :=
  exists a b, l = a ++ x ++ b /\ forallb is_space a = true /\ forallb is_space b = true /\
    (forall c r, x = c :: r -> is_space c = false) /\ (forall c r, x = r ++ [c] -> is_space c = false).
(** the names a list of lines stands for: the lines that are not blank, trimmed *)
Inductive names_in : list str -> list val -> Prop :=
| ni_nil : names_in [] []
| ni_blank l ls vs : trimmed l [] -> names_in ls vs -> names_in (l :: ls) vs
| ni_name l x ls vs : trimmed l x -> x <> [] -> names_in ls vs -> names_in (l :: ls) (VStr x :: vs).
(** what is asked by the options: the arguments that are not empty, then the lines of the input file *)
Definition asked (read : val -> res str) (options : dict) (names : list val) : Prop :=
  exists a b, names = filter truthy a ++ b /\
    (set_on options (lit "filename") = true /\ dget options (KS (lit "filename")) = Some (VList a) \/ set_on options (lit "filename") = false /\ a = []) /\
    (set_on options (lit "input_file") = true /\ (exists f text ls, dget options (KS (lit "input_file")) = Some f /\ read f = Ok text /\ lines_of text ls /\ names_in ls b) \/
     set_on options (lit "input_file") = false /\ b = []).

(** ** Facts *)
Lemma readlines_word l : no_eol l -> forall cur r, readlines cur (l ++ r) = readlines (rev l ++ cur) r.
Proof.
  induction l as [|c l IH]; intros [H1 H2] cur r; [reflexivity|]. cbn [rev]. rewrite <- app_assoc. cbn [app].
  rewrite <- IH by (split; intros H; [apply H1|apply H2]; right; exact H).
  assert (c <> 10%N) by (intros ->; apply H1; left; reflexivity). assert (c <> 13%N) by (intros ->; apply H2; left; reflexivity).
  cbn [readlines]. repeat (match goal with |- context [match ?x with _ => _ end] => is_var x; destruct x end; try reflexivity; try congruence).
Qed.
Lemma readlines_of s ls : lines_of s ls -> readlines [] s = ls.
Proof.
  induction 1 as [|l H H0|l r ls H Hr IH|l r ls H Hr IH|l r ls H Hn Hr IH].
  - reflexivity.
  - rewrite <- (app_nil_r l) at 1. rewrite readlines_word by exact H. rewrite app_nil_r. cbn [readlines].
    destruct (rev l) eqn:E; [apply (f_equal (@rev _)) in E; rewrite rev_involutive in E; destruct H0; exact E|]. rewrite <- E, rev_involutive. reflexivity.
  - rewrite readlines_word by exact H. rewrite app_nil_r. cbn [app readlines]. rewrite rev_involutive, IH. reflexivity.
  - rewrite readlines_word by exact H. rewrite app_nil_r. cbn [app readlines]. rewrite rev_involutive, IH. reflexivity.
  - rewrite readlines_word by exact H. rewrite app_nil_r. cbn [app readlines]. rewrite rev_involutive, IH.
    destruct r as [|c r]; [reflexivity|]. assert (c <> 10%N) by (intros ->; apply (Hn r); reflexivity).
    repeat (match goal with |- context [match ?x with _ => _ end] => is_var x; destruct x end; try reflexivity; try congruence).
Qed.
(** every text has lines *)
Lemma lines_exist s : exists ls, lines_of s ls.
Proof.
  assert (K : forall n s, List.length s <= n -> exists ls, lines_of s ls).
  { induction n as [|n IH]; intros t Ht; [destruct t; [|cbn in Ht; lia]; exists []; constructor|].
    assert (D : no_eol t \/ exists l c r, t = l ++ c :: r /\ no_eol l /\ (c = 10%N \/ c = 13%N)).
    { clear. induction t as [|c t IHt]; [left; split; intros []|].
      destruct (N.eq_dec c 10) as [->|A]; [right; exists [], 10%N, t; split; [reflexivity|]; split; [split; intros []|left; reflexivity]|].
      destruct (N.eq_dec c 13) as [->|B]; [right; exists [], 13%N, t; split; [reflexivity|]; split; [split; intros []|right; reflexivity]|].
      destruct IHt as [[H1 H2]|(l & d & r & -> & [H1 H2] & H3)].
      - left. split; intros [H|H]; auto.
      - right. exists (c :: l), d, r. split; [reflexivity|]. split; [|exact H3]. split; intros [H|H]; auto. }
    destruct D as [D|(l & c & r & -> & H & Hc)].
    - destruct t as [|c t]; [exists []; constructor|]. exists [c :: t]. apply lo_last; [exact D|discriminate].
    - rewrite app_length in Ht. cbn [List.length] in Ht. destruct Hc as [->| ->].
      + destruct (IH r) as [ls Hls]; [lia|]. exists (l :: ls). apply (lo_lf l r ls H Hls).
      + destruct r as [|d r]; [exists [l]; apply (lo_cr l [] [] H); [discriminate|constructor]|].
        destruct (N.eq_dec d 10) as [->|Hd].
        * destruct (IH r) as [ls Hls]; [cbn in Ht; lia|]. exists (l :: ls). apply (lo_crlf l r ls H Hls).
        * destruct (IH (d :: r)) as [ls Hls]; [lia|]. exists (l :: ls). apply (lo_cr l (d :: r) ls H); [|exact Hls]. intros r' E. injection E as -> _. congruence. }
  apply (K (List.length s)). lia.
Qed.
Lemma lstrip_all p a r : forallb p a = true -> lstrip p (a ++ r) = lstrip p r.
Proof. induction a as [|c a IH]; cbn [forallb app lstrip]; [reflexivity|]. intros H. apply andb_prop in H as [-> H]. apply IH, H. Qed.
Lemma lstrip_id p r : (forall c r', r = c :: r' -> p c = false) -> lstrip p r = r.
Proof. destruct r as [|c r]; intros H; [reflexivity|]. cbn [lstrip]. rewrite (H c r eq_refl). reflexivity. Qed.
Lemma forallb_rev {A} (p : A -> bool) l : forallb p (rev l) = forallb p l.
Proof. induction l as [|c l IH]; [reflexivity|]. cbn [rev]. rewrite forallb_app, IH. cbn [forallb]. rewrite andb_true_r. apply andb_comm. Qed.
Lemma trimmed_strip l x : trimmed l x -> strip is_space l = x.
Proof.
  intros (a & b & -> & Ha & Hb & H1 & H2). unfold strip, rstrip. rewrite lstrip_all by exact Ha.
  destruct x as [|c x].
  - cbn [app]. rewrite <- (app_nil_r b). rewrite lstrip_all by exact Hb. reflexivity.
  - rewrite (lstrip_id is_space ((c :: x) ++ b)) by (intros c' r' E; injection E as <- _; apply (H1 c x); reflexivity).
    rewrite rev_app_distr, lstrip_all by (rewrite forallb_rev; exact Hb). rewrite lstrip_id; [apply rev_involutive|].
    intros d r E. apply (H2 d (rev r)). rewrite <- (rev_involutive (c :: x)), E. reflexivity.
Qed.
Lemma trim_exists l : exists x, trimmed l x.
Proof.
  destruct (strip_spec is_space l) as (u & v & E & Hu & Hv & H1 & H2). exists (strip is_space l), u, v.
  assert (F : forall q, Forall (fun c => is_space c = true) q -> forallb is_space q = true) by (intros q Hq; apply forallb_forall; apply Forall_forall; exact Hq).
  split; [exact E|]. split; [apply F, Hu|]. split; [apply F, Hv|]. split; intros c r Er; [apply H1|apply H2]; rewrite Er; [reflexivity|].
  unfold last_error. rewrite rev_app_distr. reflexivity.
Qed.
Lemma names_fun ls vs : names_in ls vs -> filter truthy (map (fun l => VStr (strip is_space l)) ls) = vs.
Proof.
  induction 1 as [|l ls vs H Hr IH|l x ls vs H Hx Hr IH]; [reflexivity| |]; cbn [map filter]; rewrite (trimmed_strip _ _ H), IH; [reflexivity|].
  destruct x; [destruct Hx; reflexivity|reflexivity].
Qed.
Lemma names_exist ls : exists vs, names_in ls vs.
Proof.
  induction ls as [|l ls [vs IH]]; [exists []; constructor|]. destruct (trim_exists l) as [[|c x] H]; [exists vs; apply ni_blank; assumption|].
  exists (VStr (c :: x) :: vs). apply ni_name; [exact H|discriminate|exact IH].
Qed.
Lemma asked_filenames read options names : asked read options names -> filenames read options = Ok names.
Proof.
  intros (a & b & -> & HA & HB). unfold filenames, opt.
  assert (EA : (if set_on options (lit "filename") then py_iter (oget (dget options (KS (lit "filename")))) else Ok []) = Ok a).
  { destruct HA as [[-> ->]|[-> ->]]; reflexivity. }
  rewrite EA. cbn [bind]. destruct HB as [[-> (f & t & ls & -> & R & L & N)]|[-> ->]]; cbn [bind oget].
  - rewrite R. cbn [bind]. rewrite (readlines_of _ _ L), filter_app, (names_fun _ _ N). reflexivity.
  - rewrite filter_app. reflexivity.
Qed.

(** ** C46. What is printed for a guess *)
Inductive printed (yaml_lines : val -> dict -> list str) (options : dict) (f : val) (g : dict) : list event -> Prop :=
| pr_value p : dget options (KS (lit "show_property")) = Some (VStr p) -> p <> [] ->
    printed yaml_lines options f g [ECall f; EValue (match dget g (KS p) with Some v => v | None => VStr [] end)]
| pr_json : set_on options (lit "show_property") = false -> set_on options (lit "json") = true -> printed yaml_lines options f g [ECall f; EJson g]
| pr_yaml k l r : set_on options (lit "show_property") = false -> set_on options (lit "json") = false -> set_on options (lit "yaml") = true ->
    (exists c, k <> [] /\ yaml_lines f g = (k ++ [c]) :: l :: r) ->
    printed yaml_lines options f g (ECall f :: ELine (lit "? " ++ k) :: ELine (lit ":" ++ tl l) :: map ELine r)
| pr_text : set_on options (lit "show_property") = false -> set_on options (lit "json") = false -> set_on options (lit "yaml") = false ->
    printed yaml_lines options f g [EFor f; ECall f; EFound g].
(** the guesses follow each other, each one from the state the one before left, up to the first that raises *)
Inductive guessed {W} (guess : W -> val -> dict -> W * res dict) (yaml_lines : val -> dict -> list str) (options : dict) :
  W -> list val -> list event -> W -> res unit -> Prop :=
| gd_nil w : guessed guess yaml_lines options w [] [] w (Ok tt)
| gd_next w w1 w2 f l g ev ev' r : guess w f options = (w1, Ok g) -> printed yaml_lines options f g ev ->
    guessed guess yaml_lines options w1 l ev' w2 r -> guessed guess yaml_lines options w (f :: l) (ev ++ ev') w2 r
| gd_raise w w1 f l e ev : guess w f options = (w1, Err e) ->
    (ev = [ECall f] \/ ev = [EFor f; ECall f] /\ forall k, In k [lit "show_property"; lit "json"; lit "yaml"] -> set_on options k = false) ->
    guessed guess yaml_lines options w (f :: l) ev w1 (Err e).
(** the options in force: without 'yaml' when the library is missing *)
Definition in_force (has_yaml : bool) (options o : dict) : Prop :=
  (forall k, k <> KS (lit "yaml") -> dget o k = dget options k) /\
  (has_yaml = true -> o = options) /\ (has_yaml = false -> set_on o (lit "yaml") = false).
(** the option to show a property is a name, and a YAML text has a line for the name, which ends with a colon, and one for the guess *)
Definition options_ok (yaml_lines : val -> dict -> list str) (options : dict) : Prop :=
  (set_on options (lit "show_property") = true -> exists p, dget options (KS (lit "show_property")) = Some (VStr p)) /\
  (forall f g, exists k c l r, k <> [] /\ yaml_lines f g = (k ++ [c]) :: l :: r).

Lemma removelast_last (k : str) c : removelast (k ++ [c]) = k.
Proof. rewrite removelast_app by discriminate. cbn [removelast]. apply app_nil_r. Qed.
Lemma show_printed yaml_lines options f g : options_ok yaml_lines options ->
  printed yaml_lines options f g ((if negb (set_on options (lit "yaml")) && negb (set_on options (lit "json")) && negb (set_on options (lit "show_property")) then [EFor f] else []) ++ ECall f :: show yaml_lines options f g).
Proof.
  intros [HS HY]. unfold show. destruct (set_on options (lit "show_property")) eqn:ES.
  - rewrite andb_false_r. destruct (HS eq_refl) as [p Hp]. unfold opt. rewrite Hp. cbn [app]. apply pr_value; [exact Hp|].
    intros ->. unfold set_on, opt in ES. rewrite Hp in ES. discriminate.
  - destruct (set_on options (lit "json")) eqn:EJ; [rewrite andb_false_r; apply pr_json; assumption|].
    destruct (set_on options (lit "yaml")) eqn:EY; cbn [negb andb]; [|apply pr_text; assumption].
    destruct (HY f g) as (k & c & l & r & Hk & E). rewrite E. cbn [yaml_shown map app]. rewrite removelast_last. apply pr_yaml; try assumption. exists c. auto.
Qed.
Lemma guess_filenames_spec W guess yaml_lines options : options_ok yaml_lines options -> forall fs (w : W) w' ev r,
  guess_filenames W guess yaml_lines w options fs = (w', ev, r) -> guessed guess yaml_lines options w fs ev w' r.
Proof.
  intros HO. induction fs as [|f fs IH]; intros w w' ev r; cbn [guess_filenames].
  - intros E. injection E as <- <- <-. constructor.
  - unfold guess_filename. destruct (guess w f options) as [w1 [g|e]] eqn:EG.
    + destruct (guess_filenames W guess yaml_lines w1 options fs) as [[w2 ev2] r2] eqn:E2. intros E. injection E as <- <- <-.
      eapply gd_next; [exact EG|apply show_printed, HO|apply IH, E2].
    + intros E. injection E as <- <- <-. eapply gd_raise; [exact EG|].
      destruct (set_on options (lit "yaml")) eqn:A, (set_on options (lit "json")) eqn:B, (set_on options (lit "show_property")) eqn:C; cbn [negb andb app]; auto.
      right. split; [reflexivity|]. intros k [<-|[<-|[<-|[]]]]; assumption.
Qed.
Lemma calls_app a b : calls (a ++ b) = calls a ++ calls b.
Proof. apply flat_map_app. Qed.
Lemma printed_calls yaml_lines options f g ev : printed yaml_lines options f g ev -> calls ev = [f] /\ ~ In EHelp ev.
Proof.
  destruct 1 as [p H H'|A B|k l r A B C D|A B C]; (split; [try reflexivity|]).
  - intros [H0|[H0|[]]]; discriminate.
  - intros [H0|[H0|[]]]; discriminate.
  - cbn [calls flat_map app]. f_equal. clear. induction r; [reflexivity|exact IHr].
  - intros [H0|[H0|[H0|H0]]]; try discriminate. apply in_map_iff in H0 as (x & Hx & _). discriminate.
  - intros [H0|[H0|[H0|[]]]]; discriminate.
Qed.
Lemma guessed_calls W guess yaml_lines options (w : W) fs ev w' r : guessed guess yaml_lines options w fs ev w' r ->
  (exists rest, fs = calls ev ++ rest) /\ (r = Ok tt -> calls ev = fs) /\ ~ In EHelp ev /\ (forall e, r = Err e -> fs <> []).
Proof.
  induction 1 as [w|w w1 w2 f l g ev ev' r HG HP HR ((rest & IH1) & IH2 & IH3 & IH4)|w w1 f l e ev HG HE].
  - split; [exists []; reflexivity|]. split; [reflexivity|]. split; [intros []|discriminate].
  - apply printed_calls in HP as [HC HH]. rewrite calls_app, HC. split; [exists rest; cbn [app]; f_equal; exact IH1|]. split; [intros E; cbn [app]; f_equal; auto|].
    split; [rewrite in_app_iff; tauto|discriminate].
  - assert (C : calls ev = [f]) by (destruct HE as [->|[-> _]]; reflexivity). rewrite C. split; [exists l; reflexivity|]. split; [discriminate|]. split; [|discriminate].
    destruct HE as [->|[-> _]]; intros H; cbn in H; intuition discriminate.
Qed.
Lemma set_on_agree (o o' : dict) k : (forall k, k <> KS (lit "yaml") -> dget o k = dget o' k) -> k <> lit "yaml" -> set_on o k = set_on o' k.
Proof. intros H Hk. unfold set_on, opt. rewrite H; [reflexivity|]. congruence. Qed.
Lemma asked_agree read o o' names : (forall k, k <> KS (lit "yaml") -> dget o k = dget o' k) -> asked read o' names -> asked read o names.
Proof.
  intros H (a & b & E & HA & HB). exists a, b. split; [exact E|].
  assert (K1 : set_on o (lit "filename") = set_on o' (lit "filename")) by (apply set_on_agree; [exact H|discriminate]).
  assert (K2 : set_on o (lit "input_file") = set_on o' (lit "input_file")) by (apply set_on_agree; [exact H|discriminate]).
  rewrite K1, K2, !H by discriminate. split; assumption.
Qed.

(** C46: with the names asked, in order; the options in force; what --version and the listing print first; and help at the end *)
Theorem C46_main W guess listing read yaml_lines (w : W) has_yaml options names w' ev r :
  asked read options names -> options_ok yaml_lines options ->
  main W guess listing read yaml_lines w has_yaml options = (w', ev, r) ->
  exists o, in_force has_yaml options o /\
  exists head w1, calls head = [] /\ ~ In EHelp head /\ (In EVersion head <-> set_on options (lit "version") = true) /\
    (In EYamlMissing head <-> set_on options (lit "yaml") = true /\ has_yaml = false) /\
    ((exists e, snd (listing w o) = Err e /\ (set_on options (lit "properties") = true \/ set_on options (lit "values") = true) /\ ev = head /\ r = Err e) \/
     (w1 = w /\ set_on options (lit "properties") = false /\ set_on options (lit "values") = false \/
      w1 = fst (listing w o) /\ (exists p, snd (listing w o) = Ok p) /\ (set_on options (lit "properties") = true \/ set_on options (lit "values") = true)) /\
     exists body tail, ev = head ++ body ++ tail /\ guessed guess yaml_lines o w1 names body w' r /\
       (tail = [] \/ tail = [EHelp]) /\
       (tail = [EHelp] <-> names = [] /\ forall k, In k [lit "version"; lit "properties"; lit "values"] -> set_on options k = false)).
Proof.
  intros HA HO. unfold main. set (lost := set_on options (lit "yaml") && negb has_yaml).
  set (o := if lost then ddel options (KS (lit "yaml")) else options).
  assert (IF : in_force has_yaml options o).
  { unfold o, lost. split; [|split].
    - intros k Hk. destruct (set_on options (lit "yaml") && negb has_yaml); [apply dget_ddel_ne; exact Hk|reflexivity].
    - intros ->. rewrite andb_false_r. reflexivity.
    - intros ->. destruct (set_on options (lit "yaml")) eqn:E; [|exact E]. unfold set_on, opt. cbn [negb andb]. rewrite dget_ddel_eq. reflexivity. }
  pose proof IF as [AG _].
  assert (HO' : options_ok yaml_lines o).
  { destruct HO as [H1 H2]. split; [|exact H2]. rewrite (set_on_agree o options _ AG) by discriminate. rewrite AG by discriminate. exact H1. }
  apply (asked_agree read o options names AG) in HA. apply asked_filenames in HA.
  rewrite !(set_on_agree o options _ AG) by discriminate.
  set (ev2 := (if set_on options (lit "version") then [EVersion] else []) ++ (if lost then [EYamlMissing] else [])).
  assert (C2 : calls ev2 = [] /\ ~ In EHelp ev2 /\ (In EVersion ev2 <-> set_on options (lit "version") = true) /\ (In EYamlMissing ev2 <-> set_on options (lit "yaml") = true /\ has_yaml = false)).
  { unfold ev2, lost. destruct (set_on options (lit "version")), (set_on options (lit "yaml")), has_yaml; cbn [andb negb app calls flat_map In];
    repeat match goal with |- _ /\ _ => split | |- _ <-> _ => split end; intuition (try discriminate; try reflexivity). }
  destruct C2 as (C2a & C2b & C2c & C2d).
  assert (CP : forall p, calls (list_properties o p) = [] /\ ~ In EHelp (list_properties o p) /\ ~ In EVersion (list_properties o p) /\ ~ In EYamlMissing (list_properties o p)).
  { intros p. unfold list_properties. destruct (set_on o (lit "json")), (set_on o (lit "yaml")), (set_on o (lit "values")); cbn [calls flat_map app In]; try (intuition discriminate).
    - assert (K : forall l, calls (flat_map (fun kv : list N * list val => EPropName (fst kv) :: map EPropValue (snd kv)) l) = []).
      { induction l as [|[k vs] l IH]; [reflexivity|]. cbn [flat_map fst snd app]. cbn [calls flat_map app]. fold (calls (map EPropValue vs ++ flat_map (fun kv : list N * list val => EPropName (fst kv) :: map EPropValue (snd kv)) l)).
        rewrite calls_app, IH. rewrite app_nil_r. clear. induction vs; [reflexivity|exact IHvs]. }
      split; [apply K|]. assert (Q : forall e, In e (flat_map (fun kv : list N * list val => EPropName (fst kv) :: map EPropValue (snd kv)) (isort (fun a b => str_le (fst a) (fst b)) p)) -> (exists n, e = EPropName n) \/ exists v, e = EPropValue v).
      { intros e He. apply in_flat_map in He as ([k vs] & _ & [<-|He]); [left; eexists; reflexivity|]. apply in_map_iff in He as (v & <- & _). right; eexists; reflexivity. }
      repeat split; (intros [H|H]; [discriminate|apply Q in H as [[n H]|[n H]]; discriminate]).
    - assert (Q : forall e, In e (flat_map (fun kv : list N * list val => [EPropName (fst kv)]) (isort (fun a b => str_le (fst a) (fst b)) p)) -> exists n, e = EPropName n).
      { intros e He. apply in_flat_map in He as ([k vs] & _ & [<-|[]]). eexists; reflexivity. }
      split; [|repeat split; (intros [H|H]; [discriminate|apply Q in H as [n H]; discriminate])].
      clear. induction (isort (fun a b => str_le (fst a) (fst b)) p) as [|[k vs] l IH]; [reflexivity|exact IH]. }
  set (listed := set_on options (lit "properties") || set_on options (lit "values")).
  assert (Main : forall w1 head, calls head = [] -> ~ In EHelp head -> (In EVersion head <-> set_on options (lit "version") = true) ->
     (In EYamlMissing head <-> set_on options (lit "yaml") = true /\ has_yaml = false) ->
     (w1 = w /\ set_on options (lit "properties") = false /\ set_on options (lit "values") = false \/
      w1 = fst (listing w o) /\ (exists p, snd (listing w o) = Ok p) /\ (set_on options (lit "properties") = true \/ set_on options (lit "values") = true)) ->
     forall w2 ev4 r4, guess_filenames W guess yaml_lines w1 o names = (w2, ev4, r4) ->
     (match r4 with Err e => (w2, head ++ ev4, Err e) | Ok _ => (w2, head ++ ev4 ++ (if negb (set_on options (lit "version")) && negb listed && negb (nonempty_list names) then [EHelp] else []), Ok tt) end) = (w', ev, r) ->
     exists o', in_force has_yaml options o' /\ exists head' w1', calls head' = [] /\ ~ In EHelp head' /\ (In EVersion head' <-> set_on options (lit "version") = true) /\
       (In EYamlMissing head' <-> set_on options (lit "yaml") = true /\ has_yaml = false) /\
       ((exists e, snd (listing w o') = Err e /\ (set_on options (lit "properties") = true \/ set_on options (lit "values") = true) /\ ev = head' /\ r = Err e) \/
     (w1' = w /\ set_on options (lit "properties") = false /\ set_on options (lit "values") = false \/
      w1' = fst (listing w o') /\ (exists p, snd (listing w o') = Ok p) /\ (set_on options (lit "properties") = true \/ set_on options (lit "values") = true)) /\
     exists body tail, ev = head' ++ body ++ tail /\ guessed guess yaml_lines o' w1' names body w' r /\
       (tail = [] \/ tail = [EHelp]) /\
       (tail = [EHelp] <-> names = [] /\ forall k, In k [lit "version"; lit "properties"; lit "values"] -> set_on options k = false))).
  { intros w1 head D1 D2 D3 D4 D5 w2 ev4 r4 EG E. exists o. split; [exact IF|]. exists head, w1. do 4 (split; [assumption|]). right. split; [exact D5|].
    apply (guess_filenames_spec W guess yaml_lines o HO') in EG. destruct r4 as [[]|e]; injection E as <- <- <-.
    - exists ev4, (if negb (set_on options (lit "version")) && negb listed && negb (nonempty_list names) then [EHelp] else []).
      split; [reflexivity|]. split; [exact EG|]. split; [match goal with |- context [if ?c then _ else _] => destruct c end; auto|].
      split.
      + intros H. destruct (negb (set_on options (lit "version")) && negb listed && negb (nonempty_list names)) eqn:B; [|discriminate].
        apply andb_prop in B as [B B3]. apply andb_prop in B as [B1 B2]. unfold listed in B2. rewrite negb_orb in B2. apply andb_prop in B2 as [B2 B4].
        apply negb_true_iff in B1, B2, B4. split; [destruct names; [reflexivity|discriminate]|]. intros k [<-|[<-|[<-|[]]]]; assumption.
      + intros [-> H]. unfold listed. rewrite !H by (cbn [In]; tauto). reflexivity.
    - exists ev4, []. rewrite app_nil_r. split; [reflexivity|]. split; [exact EG|]. split; [left; reflexivity|]. split; [discriminate|]. intros [-> _].
      inversion EG. }
  unfold display_properties. destruct listed eqn:EL.
  - assert (L : set_on options (lit "properties") = true \/ set_on options (lit "values") = true) by (apply orb_prop; exact EL).
    destruct (listing w o) as [w1 [p|e]] eqn:EP.
    + rewrite HA. destruct (CP p) as (P1 & P2 & P3 & P4). destruct (guess_filenames W guess yaml_lines w1 o names) as [[w2 ev4] r4] eqn:EG. intros E.
      apply (Main w1 (ev2 ++ list_properties o p)) with (w2 := w2) (ev4 := ev4) (r4 := r4); try exact EG.
      * rewrite calls_app, C2a, P1. reflexivity.
      * rewrite in_app_iff. tauto.
      * rewrite in_app_iff. tauto.
      * rewrite in_app_iff. tauto.
      * right. cbn [fst snd]. split; [reflexivity|]. split; [exists p; reflexivity|exact L].
      * destruct r4; rewrite <- E, <- !app_assoc; reflexivity.
    + intros E. injection E as <- <- <-. exists o. split; [exact IF|]. exists ev2, w1. do 4 (split; [assumption|]). left. exists e. rewrite EP. rewrite app_nil_r. auto.
  - rewrite HA. destruct (guess_filenames W guess yaml_lines w o names) as [[w2 ev4] r4] eqn:EG. intros E.
    apply (Main w ev2) with (w2 := w2) (ev4 := ev4) (r4 := r4); try assumption.
    left. apply orb_false_iff in EL. tauto.
Qed.
Print Assumptions C46_main.

(** C46, in short: every name is guessed once, in order, unless something raises; and help comes exactly when nothing is asked *)
Theorem C46_once W guess listing read yaml_lines (w : W) has_yaml options names w' ev r :
  asked read options names -> options_ok yaml_lines options -> main W guess listing read yaml_lines w has_yaml options = (w', ev, r) ->
  (exists rest, names = calls ev ++ rest) /\ (r = Ok tt -> calls ev = names).
Proof.
  intros HA HO E. destruct (C46_main _ _ _ _ _ _ _ _ _ _ _ _ HA HO E) as (o & _ & head & w1 & C & _ & _ & _ & [(e & _ & _ & -> & ->)|(_ & body & tail & -> & G & T & _)]).
  - rewrite C. split; [exists names; reflexivity|discriminate].
  - apply guessed_calls in G as (G1 & G2 & _). rewrite !calls_app, C. assert (CT : calls tail = []) by (destruct T as [->| ->]; reflexivity). rewrite CT, app_nil_r. split; assumption.
Qed.
Print Assumptions C46_once.
Theorem C46_help W guess listing read yaml_lines (w : W) has_yaml options names w' ev r :
  asked read options names -> options_ok yaml_lines options -> main W guess listing read yaml_lines w has_yaml options = (w', ev, r) ->
  (In EHelp ev <-> names = [] /\ set_on options (lit "version") = false /\ set_on options (lit "properties") = false /\ set_on options (lit "values") = false).
Proof.
  intros HA HO E. destruct (C46_main _ _ _ _ _ _ _ _ _ _ _ _ HA HO E) as (o & _ & head & w1 & _ & H & _ & _ & [(e & _ & L & -> & ->)|(_ & body & tail & -> & G & T & TH)]).
  - split; [tauto|]. intros (_ & _ & H1 & H2). destruct L; congruence.
  - apply guessed_calls in G as (_ & _ & G3 & _). rewrite !in_app_iff. split.
    + intros [K|[K|K]]; [tauto|tauto|]. destruct T as [->| ->]; [destruct K|]. destruct (proj1 TH eq_refl) as [T1 T2]. split; [exact T1|].
      split; [apply T2; left; reflexivity|]. split; [apply T2; right; left; reflexivity|]. apply T2. right; right; left; reflexivity.
    + intros (H1 & H2 & H3 & H4). right. right. rewrite (proj2 TH); [left; reflexivity|]. split; [exact H1|]. intros k [<-|[<-|[<-|[]]]]; assumption.
Qed.
Print Assumptions C46_help.
(** the names asked are there for every file that can be read, and are determined *)
Theorem C46_asked read options : (set_on options (lit "filename") = true -> exists l, dget options (KS (lit "filename")) = Some (VList l)) ->
  (set_on options (lit "input_file") = true -> exists f t, dget options (KS (lit "input_file")) = Some f /\ read f = Ok t) ->
  exists names, asked read options names /\ forall names', asked read options names' -> names' = names.
Proof.
  intros H1 H2.
  assert (X : exists names, asked read options names).
  { destruct (set_on options (lit "filename")) eqn:E1, (set_on options (lit "input_file")) eqn:E2.
    - destruct (H1 eq_refl) as [l Hl], (H2 eq_refl) as (f & t & Hf & Ht). destruct (lines_exist t) as [ls L], (names_exist ls) as [vs V].
      exists (filter truthy l ++ vs), l, vs. split; [reflexivity|]. split; left; split; auto. exists f, t, ls. auto.
    - destruct (H1 eq_refl) as [l Hl]. exists (filter truthy l ++ []), l, []. split; [reflexivity|]. split; [left|right]; split; auto.
    - destruct (H2 eq_refl) as (f & t & Hf & Ht). destruct (lines_exist t) as [ls L], (names_exist ls) as [vs V].
      exists vs, [], vs. split; [reflexivity|]. split; [right|left]; split; auto. exists f, t, ls. auto.
    - exists [], [], []. split; [reflexivity|]. split; right; split; auto. }
  destruct X as [names HN]. exists names. split; [exact HN|]. intros n' Hn'. apply asked_filenames in HN, Hn'. congruence.
Qed.
Print Assumptions C46_asked.
Definition opts_ex : dict := [(KS (lit "filename"), VList [VStr (lit "a.avi"); VStr []; VStr (lit " ")]); (KS (lit "input_file"), VStr (lit "list.txt")); (KS (lit "json"), VBool true)].
Example C46_ex : let read := fun _ => Ok (lit "b.mkv  " ++ [13; 10; 10]%N ++ lit " c.mkv") in
  asked read opts_ex [VStr (lit "a.avi"); VStr (lit " "); VStr (lit "b.mkv"); VStr (lit "c.mkv")] /\
  main nat (fun n f _ => (S n, Ok [(KS (lit "n"), VInt (Z.of_nat n))])) (fun n _ => (n, Ok [])) read (fun _ _ => [lit "ab"; lit "c"]) 0 true opts_ex =
   (4, [ECall (VStr (lit "a.avi")); EJson [(KS (lit "n"), VInt 0)]; ECall (VStr (lit " ")); EJson [(KS (lit "n"), VInt 1)];
        ECall (VStr (lit "b.mkv")); EJson [(KS (lit "n"), VInt 2)]; ECall (VStr (lit "c.mkv")); EJson [(KS (lit "n"), VInt 3)]], Ok tt).
Proof.
  intros read. split; [|reflexivity]. exists [VStr (lit "a.avi"); VStr []; VStr (lit " ")], [VStr (lit "b.mkv"); VStr (lit "c.mkv")].
  split; [reflexivity|]. split; left; split; [reflexivity|reflexivity|reflexivity|].
  exists (VStr (lit "list.txt")), (lit "b.mkv  " ++ [13; 10; 10]%N ++ lit " c.mkv"), [lit "b.mkv  "; []; lit " c.mkv"]. split; [reflexivity|]. split; [reflexivity|]. split.
  - apply (lo_crlf (lit "b.mkv  ") (10%N :: lit " c.mkv") [[]; lit " c.mkv"]); [split; cbn; intuition discriminate|].
    apply (lo_lf [] (lit " c.mkv") [lit " c.mkv"]); [split; cbn; intuition discriminate|]. apply lo_last; [split; cbn; intuition discriminate|discriminate].
  - apply ni_name; [|discriminate|]; [|apply ni_blank; [|apply ni_name; [|discriminate|constructor]]].
    + exists [], (lit "  "). repeat split; try reflexivity; intros c r H; [injection H as <- _; reflexivity|].
      change (lit "b.mkv") with (lit "b.mk" ++ [118%N]) in H. apply app_inj_tail in H as [_ <-]. reflexivity.
    + exists [], []. repeat split; try reflexivity; intros c r H; [discriminate|destruct r; discriminate].
    + exists (lit " "), []. repeat split; try reflexivity; intros c r H; [injection H as <- _; reflexivity|].
      change (lit "c.mkv") with (lit "c.mk" ++ [118%N]) in H. apply app_inj_tail in H as [_ <-]. reflexivity.
Qed.
(** the limit: a name of spaces only is guessed when it is an argument, and skipped when it is a line *)
Theorem C46_limit : exists read options names, asked read options names /\ In (VStr (lit " ")) names /\ read (VStr (lit "f")) = Ok (lit " ") /\
  asked read [(KS (lit "input_file"), VStr (lit "f"))] [].
Proof.
  exists (fun _ => Ok (lit " ")), [(KS (lit "filename"), VList [VStr (lit " ")])], [VStr (lit " ")]. split; [|split; [left; reflexivity|split; [reflexivity|]]].
  - exists [VStr (lit " ")], []. split; [reflexivity|]. split; [left|right]; split; reflexivity.
  - exists [], []. split; [reflexivity|]. split; [right; split; reflexivity|left; split; [reflexivity|]].
    exists (VStr (lit "f")), (lit " "), [lit " "]. split; [reflexivity|]. split; [reflexivity|]. split; [apply lo_last; [split; cbn; intuition discriminate|discriminate]|].
    apply ni_blank; [|constructor]. exists (lit " "), []. repeat split; try reflexivity; intros c r H; [discriminate|destruct r; discriminate].
Qed.
Print Assumptions C46_limit.

(** ** C48. The listing of properties *)
(** [a] comes before [b] in the order of texts: at the first place where they differ, or [a] is a beginning of [b] *)
Definition text_before (a b : str) : Prop :=
  (exists r, b = a ++ r) \/ exists p x y r1 r2, a = p ++ x :: r1 /\ b = p ++ y :: r2 /\ (x < y)%N.
Lemma str_le_iff a : forall b, str_le a b = true <-> text_before a b.
Proof.
  induction a as [|x a IH]; intros b; cbn [str_le].
  - split; [intros _; left; exists b; reflexivity|reflexivity].
  - destruct b as [|y b].
    + split; [discriminate|]. intros [[r H]|(p & u & v & r1 & r2 & _ & H & _)]; [discriminate|destruct p; discriminate].
    + destruct (N.ltb_spec x y) as [H|H]; [|destruct (N.ltb_spec y x) as [H'|H']].
      * split; [intros _; right; exists [], x, y, a, b; auto|reflexivity].
      * split; [discriminate|]. intros [[r E]|(p & u & v & r1 & r2 & E1 & E2 & L)].
        -- injection E as -> _. lia.
        -- destruct p as [|q p]; cbn [app] in E1, E2; injection E1 as -> E1; injection E2 as -> E2; lia.
      * assert (x = y) by lia. subst y. rewrite IH. split.
        -- intros [[r ->]|(p & u & v & r1 & r2 & -> & -> & L)]; [left; exists r; reflexivity|right; exists (x :: p), u, v, r1, r2; auto].
        -- intros [[r E]|(p & u & v & r1 & r2 & E1 & E2 & L)]; [injection E as E; left; exists r; exact E|].
           destruct p as [|q p]; cbn [app] in E1, E2; [injection E1 as -> _; injection E2 as -> _; lia|]. injection E1 as -> E1. injection E2 as E2. right. exists p, u, v, r1, r2. auto.
Qed.
Lemma str_le_total a b : str_le a b = false -> str_le b a = true.
Proof.
  revert b. induction a as [|x a IH]; intros [|y b]; cbn [str_le]; try discriminate; [reflexivity|].
  destruct (N.ltb_spec x y); [discriminate|]. destruct (N.ltb_spec y x); [reflexivity|]. apply IH.
Qed.
Lemma str_le_trans a : forall b c, str_le a b = true -> str_le b c = true -> str_le a c = true.
Proof.
  induction a as [|x a IH]; intros [|y b] [|z c]; cbn [str_le]; try discriminate; try reflexivity.
  destruct (N.ltb_spec x y), (N.ltb_spec y z), (N.ltb_spec x z); try reflexivity; try lia; destruct (N.ltb_spec y x), (N.ltb_spec z y), (N.ltb_spec z x); try discriminate; try lia. apply IH.
Qed.
Lemma str_le_antisym a : forall b, str_le a b = true -> str_le b a = true -> a = b.
Proof.
  induction a as [|x a IH]; intros [|y b]; cbn [str_le]; try discriminate; [reflexivity|].
  destruct (N.ltb_spec x y), (N.ltb_spec y x); try discriminate; try lia. intros H1 H2. f_equal; [lia|apply IH; assumption].
Qed.
Lemma sget_In {V} (k : str) (d : list (str * V)) v : NoDup (map fst d) -> (sget k d = Some v <-> In (k, v) d).
Proof.
  induction d as [|[k' v'] d IH]; cbn [sget map fst]; intros N; [split; [discriminate|intros []]|]. apply NoDup_cons_iff in N as [N1 N2].
  destruct (str_eqb k k') eqn:E.
  - apply str_eqb_eq in E. subst k'. split; [intros H; injection H as ->; left; reflexivity|]. intros [H|H]; [congruence|].
    destruct N1. apply (in_map fst) in H. exact H.
  - rewrite IH by exact N2. split; [intros H; right; exact H|]. intros [H|H]; [|exact H]. injection H as -> ->. rewrite str_eqb_refl in E. discriminate.
Qed.
Lemma sget_none {V} (k : str) (d : list (str * V)) : sget k d = None <-> ~ In k (map fst d).
Proof.
  induction d as [|[k' v'] d IH]; cbn [sget map fst]; [split; [intros _ []|reflexivity]|]. destruct (str_eqb k k') eqn:E.
  - apply str_eqb_eq in E. subst k'. split; [discriminate|]. intros H. destruct H. left; reflexivity.
  - rewrite IH. split; [intros H [H'|H']; [subst; rewrite str_eqb_refl in E; discriminate|auto]|intros H H'; apply H; right; exact H'].
Qed.
Lemma sset_new {V} (k : str) (v : V) d : ~ In k (map fst d) -> sset k v d = d ++ [(k, v)].
Proof.
  induction d as [|[k' v'] d IH]; cbn [sset map fst]; intros H; [reflexivity|]. destruct (str_eqb k k') eqn:E; [apply str_eqb_eq in E; subst; destruct H; left; reflexivity|].
  rewrite IH by (intros H'; apply H; right; exact H'). reflexivity.
Qed.
(** the listing [out] of what the patterns can make, [found]: the names in order, each with its values in order; the counts come last *)
Definition listed_in_order (text : val -> str) (found out : list (str * list val)) : Prop :=
  exists front count, out = front ++ [(lit "season_count", count); (lit "episode_count", count)] /\
    StronglySorted text_before (map fst front) /\ NoDup (map fst front) /\
    (forall k vs, In (k, vs) front -> StronglySorted (fun a b => text_before (text a) (text b)) vs) /\
    StronglySorted (fun a b => text_before (text a) (text b)) count /\
    (exists vs, In (lit "count", vs) found /\ Permutation count vs) /\
    (forall k, k <> lit "count" -> (exists vs, In (k, vs) found) <-> (exists vs, In (k, vs) front)) /\ ~ In (lit "count") (map fst front) /\
    (forall k vs, In (k, vs) front -> exists vs', In (k, vs') found /\ Permutation vs vs').
Lemma ordered_In text u k vs : In (k, vs) (ordered text u) <-> exists vs', In (k, vs') u /\ vs = isort (fun a b => str_le (text a) (text b)) vs'.
Proof.
  unfold ordered. rewrite in_map_iff. split.
  - intros ([k' vs'] & E & H). cbn [fst snd] in E. injection E as -> <-. exists vs'. split; [|reflexivity]. eapply Permutation_in; [apply isort_perm|exact H].
  - intros (vs' & H & ->). exists (k, vs'). split; [reflexivity|]. eapply Permutation_in; [symmetry; apply isort_perm|exact H].
Qed.
Lemma ordered_names text u : map fst (ordered text u) = map fst (isort (fun a b : str * list val => str_le (fst a) (fst b)) u).
Proof. unfold ordered. rewrite map_map. reflexivity. Qed.
Lemma ordered_NoDup text u : NoDup (map fst u) -> NoDup (map fst (ordered text u)).
Proof. intros H. rewrite ordered_names. eapply Permutation_NoDup; [|exact H]. apply Permutation_map. symmetry. apply isort_perm. Qed.
Lemma sorted_map {A B} (f : A -> B) (R : B -> B -> Prop) l : StronglySorted (fun a b => R (f a) (f b)) l -> StronglySorted R (map f l).
Proof.
  induction 1 as [|x l H IH F]; cbn [map]; constructor; [exact IH|]. rewrite Forall_forall in *. intros y Hy. apply in_map_iff in Hy as (z & <- & Hz). apply F, Hz.
Qed.
Lemma sorted_weaken {A} (R S : A -> A -> Prop) l : (forall a b, R a b -> S a b) -> StronglySorted R l -> StronglySorted S l.
Proof. intros H. induction 1 as [|x l H1 IH F]; constructor; [exact IH|]. eapply Forall_impl; [|exact F]. auto. Qed.
Lemma values_sorted (text : val -> str) vs : StronglySorted (fun a b => text_before (text a) (text b)) (isort (fun a b => str_le (text a) (text b)) vs).
Proof.
  eapply sorted_weaken; [|apply isort_sorted].
  - intros a b H. apply str_le_iff. exact H.
  - intros x y. apply str_le_total.
  - intros x y z. apply str_le_trans.
Qed.
Lemma sorted_filter {A} (R : A -> A -> Prop) p l : StronglySorted R l -> StronglySorted R (filter p l).
Proof.
  induction 1 as [|x l H IH F]; cbn [filter]; [constructor|]. destruct (p x); [constructor; [exact IH|]|exact IH].
  rewrite Forall_forall in *. intros y Hy. apply filter_In in Hy as [Hy _]. apply F, Hy.
Qed.
Theorem C48_listing text found : NoDup (map fst found) -> ~ In (lit "season_count") (map fst found) -> ~ In (lit "episode_count") (map fst found) ->
  (In (lit "count") (map fst found) -> exists out, properties_of text found = Ok out /\ listed_in_order text found out) /\
  (~ In (lit "count") (map fst found) -> properties_of text found = Err KeyError).
Proof.
  intros N S E. unfold properties_of, customize_properties. pose proof (ordered_NoDup text found N) as N'.
  assert (IN : forall k, In k (map fst (ordered text found)) <-> In k (map fst found)).
  { intros k. rewrite ordered_names. split; apply Permutation_in; [|symmetry]; apply Permutation_map, isort_perm. }
  split; intros HC.
  - apply IN in HC. destruct (sget (lit "count") (ordered text found)) as [c|] eqn:EC; [|apply sget_none in EC; destruct EC; exact HC].
    apply sget_In in EC; [|exact N']. set (front := sdel (lit "count") (ordered text found)).
    assert (SF : forall k vs, In (k, vs) front <-> In (k, vs) (ordered text found) /\ k <> lit "count").
    { intros k vs. unfold front, sdel. rewrite filter_In. cbn [fst]. split; intros [H1 H2]; (split; [exact H1|]).
      - intros ->. rewrite str_eqb_refl in H2. discriminate.
      - apply negb_true_iff. destruct (str_eqb (lit "count") k) eqn:X; [apply str_eqb_eq in X; subst; destruct H2; reflexivity|reflexivity]. }
    assert (SN : forall k, In k (map fst front) -> In k (map fst found)).
    { intros k H. apply in_map_iff in H as ([k' vs] & <- & H). apply SF in H as [H _]. apply IN. apply (in_map fst) in H. exact H. }
    exists (front ++ [(lit "season_count", c); (lit "episode_count", c)]). split.
    + rewrite (sset_new (lit "season_count")) by (intros H; apply S, SN, H). rewrite (sset_new (lit "episode_count")).
      * rewrite <- app_assoc. reflexivity.
      * rewrite map_app, in_app_iff. intros [H|[H|[]]]; [apply E, SN, H|discriminate].
    + exists front, c. split; [reflexivity|]. split; [|split; [|split; [|split; [|split; [|split; [|split]]]]]].
      * unfold front, sdel, ordered. apply sorted_map. apply sorted_filter.
        assert (Q : StronglySorted (fun a b : str * list val => text_before (fst a) (fst b)) (isort (fun a b => str_le (fst a) (fst b)) found)).
        { eapply sorted_weaken; [|apply isort_sorted]; [intros a b H; apply str_le_iff; exact H|intros x y; apply str_le_total|intros x y z; apply str_le_trans]. }
        clear -Q. induction Q as [|x l H IH F]; cbn [map]; constructor; [exact IH|]. rewrite Forall_forall in *. intros y Hy. apply in_map_iff in Hy as (z & <- & Hz). cbn [fst]. apply F, Hz.
      * unfold front, sdel. clear -N'. induction (ordered text found) as [|[k vs] l IH]; [constructor|]. cbn [map fst] in N'. apply NoDup_cons_iff in N' as [A B]. cbn [filter].
        destruct (negb _); [|apply IH, B]. cbn [map fst]. constructor; [|apply IH, B]. intros H. apply A. apply in_map_iff in H as (x & <- & H). apply filter_In in H as [H _]. apply in_map, H.
      * intros k vs H. apply SF in H as [H _]. apply ordered_In in H as (vs' & _ & ->). apply values_sorted.
      * apply ordered_In in EC as (vs' & _ & ->). apply values_sorted.
      * apply ordered_In in EC as (vs' & H & ->). exists vs'. split; [exact H|apply isort_perm].
      * intros k Hk. split.
        -- intros [vs H]. exists (isort (fun a b => str_le (text a) (text b)) vs). apply SF. split; [|exact Hk]. apply ordered_In. exists vs. auto.
        -- intros [vs H]. apply SF in H as [H _]. apply ordered_In in H as (vs' & H & _). exists vs'. exact H.
      * intros H. apply in_map_iff in H as ([k vs] & E1 & H). apply SF in H as [_ H]. cbn [fst] in E1. congruence.
      * intros k vs H. apply SF in H as [H _]. apply ordered_In in H as (vs' & H & ->). exists vs'. split; [exact H|apply isort_perm].
  - rewrite (proj2 (sget_none (lit "count") (ordered text found))); [reflexivity|]. rewrite IN. exact HC.
Qed.
Print Assumptions C48_listing.
(** the names are not in order as a whole: the counts come after the others *)
Theorem C48_limit : exists found out, NoDup (map fst found) /\ properties_of (fun v => match v with VStr s => s | _ => [] end) found = Ok out /\
  map fst out = [lit "title"; lit "season_count"; lit "episode_count"] /\ ~ StronglySorted text_before (map fst out).
Proof.
  exists [(lit "title", []); (lit "count", [VStr (lit "b"); VStr (lit "a")])].
  exists [(lit "title", []); (lit "season_count", [VStr (lit "a"); VStr (lit "b")]); (lit "episode_count", [VStr (lit "a"); VStr (lit "b")])].
  split; [repeat constructor; cbn; intuition discriminate|]. split; [reflexivity|]. split; [reflexivity|]. intros H.
  cbn [map fst] in H. inversion H as [|? ? _ F]. subst. rewrite Forall_forall in F. assert (K : text_before (lit "title") (lit "season_count")) by (apply F; left; reflexivity).
  apply str_le_iff in K. discriminate K.
Qed.
Print Assumptions C48_limit.
