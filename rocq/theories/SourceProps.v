(** Streaming services and sources (C74, C75). *)
From Verif Require Import Py PyFacts Text Sort Common Rebulk RebulkFacts RuleSpec OtherProps Title TitleProofs TitleConflictProps EpisodeTitle Episodes EpisodeRules EpisodeRulesProps EpisodeWeakProps Language Technical TechnicalProps.
From Coq Require Import Arith ZifyBool Sorted.

(** ** Specification *)
(** a match with a tag comes next, or just before, with nothing but separators or matches between *)
Definition near_after (s : str) (ms : list mt) (v : mt) (P : mt -> Prop) : Prop := exists n, just_after ms v n /\ P n /\ adjacent s ms (m_end v) (m_start n).
Definition near_before (s : str) (ms : list mt) (v : mt) (P : mt -> Prop) : Prop := exists p, just_before ms v p /\ P p /\ adjacent s ms (m_end p) (m_start v).
(** [m] is the match [i] or one of its children *)
Definition of_pattern (kids : mt -> list mt) (i m : mt) : Prop := mkey i = mkey m \/ exists r, In r (kids i) /\ mkey r = mkey m.

Lemma far_after_iff s ms v p (P : mt -> Prop) : nonempty ms -> inside s ms -> (forall m, p m = true <-> P m) ->
  far_after s ms v (first (next v ms p)) = false <-> near_after s ms v P.
Proof.
  intros NE I H. assert (Wf : forall y, In y ms -> m_start y <= m_end y) by (intros y Hy; specialize (NE y Hy); lia).
  unfold near_after. split.
  - destruct (first (next v ms p)) as [n|] eqn:E; [|discriminate]. intros F. apply hd_error_In in E. apply next_In in E as (A & B & C & G); [|exact Wf]. apply H in A.
    exists n. split; [split; auto|]. split; [exact A|]. cbn [far_after] in F. apply Bool.orb_false_iff in F as [_ F]. apply not_text; [exact NE|exact I| |rewrite F; reflexivity]. specialize (I n B). specialize (NE n B). lia.
  - intros (n & (B & C & G) & A & F). apply H in A. assert (Hn : In n (next v ms p)) by (apply next_In; auto).
    destruct (next v ms p) as [|q l] eqn:E; [destruct Hn|]. cbn [first hd_error far_after]. assert (Hq : In q (next v ms p)) by (rewrite E; left; reflexivity).
    apply next_In in Hq as (A' & B' & C' & G'); [|exact Wf]. assert (m_start q = m_start n) by (specialize (G q B' C'); specialize (G' n B C); lia).
    pose proof (NE q B'). assert (m_truthy q = true) as -> by (unfold m_truthy; apply Nat.ltb_lt; lia). cbn [negb orb]. rewrite H0. apply Bool.negb_true_iff. apply not_text; auto. specialize (I n B). specialize (NE n B). lia.
Qed.
Lemma far_before_iff s ms v p (P : mt -> Prop) : nonempty ms -> inside s ms -> m_start v <= List.length s -> (forall m, p m = true <-> P m) ->
  far_before s ms v (first (previous v ms p)) = false <-> near_before s ms v P.
Proof.
  intros NE I V H. unfold near_before. split.
  - destruct (first (previous v ms p)) as [n|] eqn:E; [|discriminate]. intros F. apply hd_error_In in E. apply previous_In in E as (A & B & C & G). apply H in A.
    exists n. split; [split; auto|]. split; [exact A|]. cbn [far_before] in F. apply Bool.orb_false_iff in F as [_ F]. apply not_text; [exact NE|exact I|exact V|rewrite F; reflexivity].
  - intros (n & (B & C & G) & A & F). apply H in A. assert (Hn : In n (previous v ms p)) by (apply previous_In; auto).
    destruct (previous v ms p) as [|q l] eqn:E; [destruct Hn|]. cbn [first hd_error far_before]. assert (Hq : In q (previous v ms p)) by (rewrite E; left; reflexivity).
    apply previous_In in Hq as (A' & B' & C' & G'). assert (m_end q = m_end n) by (specialize (G q B' C'); specialize (G' n B C); lia).
    pose proof (NE q B'). assert (m_truthy q = true) as -> by (unfold m_truthy; apply Nat.ltb_lt; lia). cbn [negb orb]. rewrite H0. apply Bool.negb_true_iff. apply not_text; auto.
Qed.

(** ** C74. A streaming service stands next to a technical match *)
Definition service_ok (s : str) (ini : mt -> mt) (kids : mt -> list mt) (ms : list mt) (v : mt) : Prop :=
  (exists k, In k (kids (ini v)) /\ m_name k = lit "other") \/
  (near_after s ms v (tag "streaming_service.suffix") /\ clear_before s v) \/
  (near_before s ms v (tag "streaming_service.prefix") /\ clear_after s v).
Lemma service_iff s ini kids ms v : nonempty ms -> inside s ms -> In v ms -> m_start (ini v) < m_end (ini v) ->
  service_alone s ini kids ms v = false <-> service_ok s ini kids ms v.
Proof.
  intros NE I V Hi. unfold service_alone, service_ok. assert (m_truthy (ini v) = true) as -> by (unfold m_truthy; apply Nat.ltb_lt; exact Hi). cbn [andb].
  rewrite <- before_iff, <- after_iff.
  rewrite <- (far_after_iff s ms v (has_tag (lit "streaming_service.suffix")) (tag "streaming_service.suffix")); [|exact NE|exact I|intros x; apply has_tag_iff].
  rewrite <- (far_before_iff s ms v (has_tag (lit "streaming_service.prefix")) (tag "streaming_service.prefix")); [|exact NE|exact I|specialize (I v V); lia|intros x; apply has_tag_iff].
  assert (K : (exists k, In k (kids (ini v)) /\ m_name k = lit "other") <-> nonnil (named (lit "other") (kids (ini v))) = true).
  { rewrite nonnil_ex. split; intros (k & Hk); exists k; apply named_In; exact Hk. }
  rewrite K. destruct (nonnil (named (lit "other") (kids (ini v)))), (far_after _ _ _ _), (far_before _ _ _ _), (chars_before is_sep s v), (chars_after is_sep s v); cbn; intuition discriminate.
Qed.
(** a service stays only if it is a valid one; a Criterion edition goes when Comedy Central is a valid service, as both are written CC *)
Theorem C74_service s ini kids ms m : distinct ms -> nonempty ms -> inside s ms -> (forall x, In x ms -> m_start (ini x) < m_end (ini x)) ->
  In m (ValidateStreamingService s ini kids ms) <-> In m ms /\
  (m_name m = lit "streaming_service" -> service_ok s ini kids ms m) /\
  (m_name m = lit "edition" -> m_value m = MvStr (lit "Criterion") ->
    forall v, In v ms -> m_name v = lit "streaming_service" -> m_value v = MvStr (lit "Comedy Central") -> ~ service_ok s ini kids ms v).
Proof.
  intros D NE I Hi.
  assert (R : forall x, In x (services_removed s ini kids ms) <-> In x ms /\ (m_name x = lit "streaming_service" /\ ~ service_ok s ini kids ms x \/
     m_name x = lit "edition" /\ m_value x = MvStr (lit "Criterion") /\ exists v, In v ms /\ m_name v = lit "streaming_service" /\ m_value v = MvStr (lit "Comedy Central") /\ service_ok s ini kids ms v)).
  { intros x. unfold services_removed. rewrite in_concat. split.
    - intros (l & Hl & Hx). apply in_map_iff in Hl as (v & <- & Hv). apply named_In in Hv as [V1 V2]. pose proof (service_iff s ini kids ms v NE I V1 (Hi v V1)) as S.
      destruct (service_alone s ini kids ms v) eqn:E.
      + destruct Hx as [<-|[]]. split; [exact V1|]. left. split; [exact V2|]. intros H. apply S in H. discriminate.
      + destruct (is_text (lit "Comedy Central") v) eqn:C; [|destruct Hx]. apply filter_In in Hx as [Hx T]. apply named_In in Hx as [X1 X2]. apply is_text_iff in C, T.
        split; [exact X1|]. right. split; [exact X2|]. split; [exact T|]. exists v. intuition.
    - intros [X1 [[X2 X3]|(X2 & X3 & v & V1 & V2 & V3 & V4)]]; eexists.
      + split; [apply in_map_iff; exists x; split; [reflexivity|apply named_In; auto]|]. pose proof (service_iff s ini kids ms x NE I X1 (Hi x X1)) as S.
        destruct (service_alone s ini kids ms x); [left; reflexivity|destruct X3; apply S; reflexivity].
      + split; [apply in_map_iff; exists v; split; [reflexivity|apply named_In; auto]|]. rewrite (proj2 (service_iff s ini kids ms v NE I V1 (Hi v V1)) V4).
        rewrite (proj2 (is_text_iff _ v) V3). apply filter_In. split; [apply named_In; auto|apply is_text_iff; exact X3]. }
  unfold ValidateStreamingService. rewrite remove_all_In; [|exact D|intros x Hx; apply R in Hx; tauto]. rewrite R. split.
  - intros [Hm H]. split; [exact Hm|]. split.
    + intros N. apply service_iff; auto. destruct (service_alone s ini kids ms m) eqn:E; [|reflexivity]. destruct H. split; [exact Hm|]. left. split; [exact N|]. intros O. apply service_iff in O; auto. congruence.
    + intros N V v V1 V2 V3 O. apply H. split; [exact Hm|]. right. split; [exact N|]. split; [exact V|]. exists v. auto.
  - intros [Hm [H1 H2]]. split; [exact Hm|]. intros [_ [[N O]|(N & V & v & V1 & V2 & V3 & V4)]]; [apply O, H1, N|apply (H2 N V v); auto].
Qed.
Print Assumptions C74_service.
Definition service_ex : mt := simple 2 4 (lit "streaming_service") (MvStr (lit "Amazon Prime")) [].
Definition web_ex : mt := simple 5 8 (lit "source") (MvStr (lit "Web")) [lit "streaming_service.suffix"].
Example C74_ex : ValidateStreamingService (lit "a AZ WEB") (fun m => m) (fun _ => []) [service_ex; web_ex] = [service_ex; web_ex] /\
  ValidateStreamingService (lit "a AZ b WEB") (fun m => m) (fun _ => []) [service_ex; simple 7 10 (lit "source") (MvStr (lit "Web")) [lit "streaming_service.suffix"]] = [simple 7 10 (lit "source") (MvStr (lit "Web")) [lit "streaming_service.suffix"]].
Proof. split; reflexivity. Qed.

(** the matches of the patterns of [l] that do not pass go, with their patterns *)
Lemma remove_patterns (c : mt -> bool) (ini : mt -> mt) (kids : mt -> list mt) l ms m : distinct ms ->
  In m (remove_all (List.concat (map (fun x => if c (ini x) then kids (ini x) ++ [ini x] else []) l)) ms) <->
  In m ms /\ forall x, In x l -> of_pattern kids (ini x) m -> c (ini x) = false.
Proof.
  intros D. rewrite remove_any by exact D. split; intros [A B]; (split; [exact A|]).
  - intros x Hx K. destruct (c (ini x)) eqn:E; [|reflexivity]. exfalso.
    assert (H : forall r, In r (kids (ini x) ++ [ini x]) -> mkey r <> mkey m).
    { intros r Hr. apply B. apply in_concat. exists (kids (ini x) ++ [ini x]). split; [apply in_map_iff; exists x; rewrite E; auto|exact Hr]. }
    destruct K as [K|(r & K1 & K2)]; [apply (H (ini x)); [apply in_app_iff; right; left; reflexivity|exact K]|apply (H r); [apply in_app_iff; left; exact K1|exact K2]].
  - intros r Hr E. apply in_concat in Hr as (q & Hq & Hr). apply in_map_iff in Hq as (x & <- & Hx). destruct (c (ini x)) eqn:C; [|destruct Hr].
    assert (F : c (ini x) = false); [|congruence]. apply B; [exact Hx|]. apply in_app_iff in Hr as [Hr|[<-|[]]]; [right; exists r; auto|left; exact E].
Qed.
(** an 'other' that goes with services stays only between separators, or touching a service on the side it is made for *)
Definition neighbour_ok (s : str) (ms : list mt) (i : mt) : Prop :=
  (clear_after s i \/ tag "streaming_service.prefix" i /\ near_after s ms i (fun n => m_name n = lit "streaming_service")) /\
  (clear_before s i \/ ~ clear_after s i \/ tag "streaming_service.suffix" i /\ near_before s ms i (fun n => m_name n = lit "streaming_service")).
Theorem C74_neighbour s ini kids ms m : distinct ms -> nonempty ms -> inside s ms -> (forall x, In x ms -> m_start (ini x) <= List.length s) ->
  In m (ValidateStreamingServiceNeighbor s ini kids ms) <-> In m ms /\
  forall x, In x ms -> m_name x = lit "other" -> m_name (ini x) <> lit "source" -> tag "streaming_service.prefix" x \/ tag "streaming_service.suffix" x ->
    of_pattern kids (ini x) m -> neighbour_ok s ms (ini x).
Proof.
  intros D NE I Hi. unfold ValidateStreamingServiceNeighbor. rewrite (remove_patterns (neighbour_alone s ms)) by exact D.
  assert (K : forall x, In x ms -> neighbour_alone s ms (ini x) = false <-> neighbour_ok s ms (ini x)).
  { intros x Hx. unfold neighbour_alone, neighbour_ok. rewrite <- before_iff, <- after_iff.
    rewrite <- (far_after_iff s ms (ini x) (has_name (lit "streaming_service")) (fun n => m_name n = lit "streaming_service")); [|exact NE|exact I|intros y; apply has_name_iff].
    rewrite <- (far_before_iff s ms (ini x) (has_name (lit "streaming_service")) (fun n => m_name n = lit "streaming_service")); [|exact NE|exact I|apply Hi, Hx|intros y; apply has_name_iff].
    unfold tag. rewrite <- !has_tag_iff.
    destruct (chars_after is_sep s (ini x)), (chars_before is_sep s (ini x)), (has_tag (lit "streaming_service.prefix") (ini x)), (has_tag (lit "streaming_service.suffix") (ini x)),
      (far_after _ _ _ _), (far_before _ _ _ _); cbn [negb andb]; intuition congruence. }
  assert (F : forall x, In x (filter (fun m => negb (has_name (lit "source") (ini m)) && (has_tag (lit "streaming_service.prefix") m || has_tag (lit "streaming_service.suffix") m)) (named (lit "other") ms)) <->
     In x ms /\ m_name x = lit "other" /\ m_name (ini x) <> lit "source" /\ (tag "streaming_service.prefix" x \/ tag "streaming_service.suffix" x)).
  { intros x. rewrite filter_In, named_In, Bool.andb_true_iff, Bool.negb_true_iff, has_name_false, Bool.orb_true_iff, !has_tag_iff. unfold tag. tauto. }
  split; intros [A B]; (split; [exact A|]).
  - intros x X1 X2 X3 X4 X5. apply K; [exact X1|]. apply B; [apply F; auto|exact X5].
  - intros x Hx P. apply F in Hx as (X1 & X2 & X3 & X4). apply K; auto.
Qed.
Print Assumptions C74_neighbour.
Definition hybrid_ex : mt := simple 2 4 (lit "other") (MvStr (lit "HD")) [lit "streaming_service.prefix"].
Example C74_neighbour_ex : ValidateStreamingServiceNeighbor (lit "a HDNF b") (fun m => m) (fun _ => []) [hybrid_ex; simple 4 6 (lit "streaming_service") (MvStr (lit "Netflix")) []] = [hybrid_ex; simple 4 6 (lit "streaming_service") (MvStr (lit "Netflix")) []] /\
  ValidateStreamingServiceNeighbor (lit "a HDNF b") (fun m => m) (fun _ => []) [hybrid_ex] = [].
Proof. split; reflexivity. Qed.

(** ** C75. Sources *)
Definition source_ok (s : str) (ms : list mt) (i : mt) : Prop :=
  (clear_before s i \/ exists p, In p ms /\ tag "source-prefix" p /\ m_start p + 2 < m_start i /\ m_start i <= m_end p) /\
  (clear_after s i \/ at_place ms (m_end i) (tag "source-suffix")).
(** a source stays, with its whole pattern, only between separators or matches that may touch it *)
Theorem C75_source s ini kids markers ms m : ep_ok s markers ms -> (forall x, In x ms -> m_end (ini x) <= List.length s /\ m_start (ini x) <= List.length s) ->
  In m (ValidateSource s ini kids markers ms) <-> In m ms /\
  forall part x, path_part markers part -> In x ms -> touches part x -> m_name x = lit "source" -> of_pattern kids (ini x) m -> source_ok s ms (ini x).
Proof.
  intros W Hi. unfold ValidateSource.
  assert (K : forall x, In x ms -> source_alone s ms (ini x) = false <-> source_ok s ms (ini x)).
  { intros x Hx. unfold source_alone, source_ok. rewrite <- before_iff, <- after_iff. destruct (Hi x Hx) as [H1 H2].
    assert (A : chars_before is_sep s (ini x) = false -> nonnil (range s ms (m_start (ini x) - 1) (m_start (ini x) - 2) (has_tag (lit "source-prefix"))) = true <-> exists p, In p ms /\ tag "source-prefix" p /\ m_start p + 2 < m_start (ini x) /\ m_start (ini x) <= m_end p).
    { intros H. apply not_before in H. rewrite nonnil_ex. split; intros (p & Hp); exists p.
      - apply range_In' in Hp; [|apply W|lia]. rewrite has_tag_iff in Hp. unfold tag. intuition lia.
      - apply range_In'; [apply W|lia|]. rewrite has_tag_iff. unfold tag in Hp. intuition lia. }
    assert (B : chars_after is_sep s (ini x) = false -> nonnil (range s ms (m_end (ini x)) (m_end (ini x) + 1) (has_tag (lit "source-suffix"))) = true <-> at_place ms (m_end (ini x)) (tag "source-suffix")).
    { intros H. apply not_after in H. apply place_range; [apply W|exact H|intros y; apply has_tag_iff]. }
    destruct (chars_before is_sep s (ini x)) eqn:EB; destruct (chars_after is_sep s (ini x)) eqn:EA; cbn [negb andb orb].
    - tauto.
    - rewrite <- (B eq_refl). match goal with |- context [nonnil ?l] => destruct (nonnil l) end; cbn [negb]; intuition congruence.
    - rewrite <- (A eq_refl). match goal with |- context [nonnil ?l] => destruct (nonnil l) end; cbn [negb orb]; intuition congruence.
    - rewrite <- (A eq_refl), <- (B eq_refl). destruct (nonnil (range s ms (m_start (ini x) - 1) _ _)), (nonnil (range s ms (m_end (ini x)) _ _)); cbn [negb orb]; intuition congruence. }
  assert (E : List.concat (map (fun part => List.concat (map (fun m => if source_alone s ms (ini m) then kids (ini m) ++ [ini m] else []) (in_part_of s ms part (has_name (lit "source"))))) (parts_of markers)) =
    List.concat (map (fun m => if source_alone s ms (ini m) then kids (ini m) ++ [ini m] else []) (List.concat (map (fun part => in_part_of s ms part (has_name (lit "source"))) (parts_of markers))))).
  { induction (parts_of markers) as [|q l IH]; [reflexivity|]. cbn [map List.concat]. rewrite map_app, concat_app, IH. reflexivity. }
  rewrite E, (remove_patterns (source_alone s ms)) by apply W.
  assert (F : forall x, In x (List.concat (map (fun part => in_part_of s ms part (has_name (lit "source"))) (parts_of markers))) <-> exists part, path_part markers part /\ In x ms /\ touches part x /\ m_name x = lit "source").
  { intros x. rewrite concat_parts. split; intros (part & Hp & Hx); exists part; (split; [exact Hp|]).
    - apply (part_In s markers) in Hx as (A & B & C); [|exact W|apply Hp]. apply has_name_iff in C. auto.
    - apply (part_In s markers); [exact W|apply Hp|]. rewrite has_name_iff. exact Hx. }
  split; intros [A B]; (split; [exact A|]).
  - intros part x X1 X2 X3 X4 X5. apply K; [exact X2|]. apply B; [apply F; exists part; auto|exact X5].
  - intros x Hx P. apply F in Hx as (part & X1 & X2 & X3 & X4). apply K; [exact X2|]. apply (B part); auto.
Qed.
Print Assumptions C75_source.
Definition path_ex (n : nat) : mt := simple 0 n (lit "path") (MvStr []) [].
Definition hd_tv (a b : nat) : mt := simple a b (lit "source") (MvStr (lit "HDTV")) [].
Definition prefix_ex (a b : nat) : mt := simple a b (lit "streaming_service") (MvStr (lit "x")) [lit "source-prefix"].
Example C75_ex : ValidateSource (lit "a ITVHDTV") (fun m => m) (fun _ => []) [path_ex 9] [prefix_ex 2 5; hd_tv 5 9] = [prefix_ex 2 5; hd_tv 5 9] /\
  ValidateSource (lit "a bbbHDTV") (fun m => m) (fun _ => []) [path_ex 9] [hd_tv 5 9] = [].
Proof. split; reflexivity. Qed.
(** the limit: a prefix of two characters that touches the source is not seen *)
Theorem C75_limit : exists s ms p m, ms = [p; m] /\ tag "source-prefix" p /\ m_end p = m_start m /\ m_name m = lit "source" /\ clear_after s m /\
  ValidateSource s (fun m => m) (fun _ => []) [path_ex (List.length s)] ms = [p].
Proof.
  exists (lit "a NFHDTV"), [prefix_ex 2 4; hd_tv 4 8], (prefix_ex 2 4), (hd_tv 4 8). split; [reflexivity|]. split; [left; reflexivity|]. split; [reflexivity|]. split; [reflexivity|].
  split; [intros c H; discriminate|reflexivity].
Qed.
Print Assumptions C75_limit.

(** WEB alone before another source of the part, with words of the part before it, is taken for a word of the title *)
Theorem C75_weak s kids markers ms m : ep_ok s markers ms ->
  In m (ValidateWeakSource s kids markers ms) <-> In m ms /\
  ~ exists part x, path_part markers part /\ In x ms /\ touches part x /\ m_name x = lit "source" /\ tag "weak.source" x /\
      (exists y, In y ms /\ m_name y = lit "source" /\ m_end x < m_end y /\ m_start y < m_end part) /\ ~ adjacent s ms (m_start part) (m_start x) /\ of_pattern kids x m.
Proof.
  intros W. unfold ValidateWeakSource. rewrite remove_any by apply W.
  assert (K : forall part x, path_part markers part -> In x ms -> weak_source s ms part x = true <-> tag "weak.source" x /\
      (exists y, In y ms /\ m_name y = lit "source" /\ m_end x < m_end y /\ m_start y < m_end part) /\ ~ adjacent s ms (m_start part) (m_start x)).
  { intros part x Hp Hx. unfold weak_source. rewrite !Bool.andb_true_iff, has_tag_iff. pose proof (eo_inside _ _ _ W x Hx) as I. pose proof (eo_markers _ _ _ W part (proj1 Hp)) as M.
    rewrite <- (not_text s ms (m_start part) (m_start x)); [|apply W|apply W|lia]. rewrite Bool.not_true_iff_false, Bool.negb_false_iff.
    assert (R : nonnil (range s ms (m_end x) (m_end part) (has_name (lit "source"))) = true <-> exists y, In y ms /\ m_name y = lit "source" /\ m_end x < m_end y /\ m_start y < m_end part).
    { rewrite nonnil_ex. split; intros (y & Hy); exists y; [apply range_In' in Hy; [|apply W|exact M]; rewrite has_name_iff in Hy; tauto|apply range_In'; [apply W|exact M|]; rewrite has_name_iff; tauto]. }
    rewrite R. unfold tag. tauto. }
  split; intros [A B]; (split; [exact A|]).
  - intros (part & x & P & X1 & X2 & X3 & X4 & X5 & X6 & X7).
    assert (H : forall r, In r (kids x ++ [x]) -> mkey r <> mkey m).
    { intros r Hr. apply B. apply concat_parts. exists part. split; [exact P|]. apply in_concat. exists (kids x ++ [x]). split; [|exact Hr]. apply in_map_iff. exists x. rewrite (proj2 (K part x P X1)) by auto. split; [reflexivity|].
      apply (part_In s markers); [exact W|apply P|]. rewrite has_name_iff. auto. }
    destruct X7 as [E|(r & R1 & R2)]; [apply (H x); [apply in_app_iff; right; left; reflexivity|exact E]|apply (H r); [apply in_app_iff; left; exact R1|exact R2]].
  - intros r Hr E. apply concat_parts in Hr as (part & P & Hr). apply in_concat in Hr as (q & Hq & Hr). apply in_map_iff in Hq as (x & <- & Hx).
    apply (part_In s markers) in Hx as (X1 & X2 & X3); [|exact W|apply P]. apply has_name_iff in X3. destruct (weak_source s ms part x) eqn:C; [|destruct Hr].
    apply (K part x P X1) in C as (C1 & C2 & C3). apply B. exists part, x. do 7 (split; [assumption|]). apply in_app_iff in Hr as [Hr|[<-|[]]]; [right; exists r; auto|left; exact E].
Qed.
Print Assumptions C75_weak.
Definition web_weak : mt := simple 4 7 (lit "source") (MvStr (lit "Web")) [lit "weak.source"].
Example C75_weak_ex : ValidateWeakSource (lit "The Web 2010 DVD") (fun _ => []) [path_ex 16] [web_weak; simple 13 16 (lit "source") (MvStr (lit "DVD")) []] = [simple 13 16 (lit "source") (MvStr (lit "DVD")) []] /\
  ValidateWeakSource (lit "The Web") (fun _ => []) [path_ex 7] [web_weak] = [web_weak].
Proof. split; reflexivity. Qed.
