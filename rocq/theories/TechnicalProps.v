(** Audio and video properties (C72, C73). *)
From Verif Require Import Py PyFacts Text Sort Common Rebulk RebulkFacts RuleSpec OtherProps Title TitleProofs EpisodeTitle Episodes EpisodeRules EpisodeRulesProps EpisodeWeakProps Technical.
From Coq Require Import Arith ZifyBool.

(** ** Specification *)
(** a separator, or an end of the text, on one side *)
Definition clear_before (s : str) (m : mt) : Prop := forall i c, S i = m_start m -> nth_error s i = Some c -> is_sep c = true.
Definition clear_after (s : str) (m : mt) : Prop := forall c, nth_error s (m_end m) = Some c -> is_sep c = true.
(** a match of a kind covers a place of the text *)
Definition at_place (ms : list mt) (i : nat) (P : mt -> Prop) : Prop := exists a, In a ms /\ m_start a <= i < m_end a /\ P a.
(** one of a kind at the ends of [p], just before or just after *)
Definition around (ms : list mt) (p : mt) (P : mt -> Prop) : Prop :=
  at_place ms (m_start p) P \/ at_place ms (m_end p - 1) P \/ (exists c, just_before ms p c /\ P c) \/ (exists c, just_after ms p c /\ P c).
Definition audio (m : mt) : Prop := In (m_name m) [lit "audio_codec"; lit "audio_profile"; lit "audio_channels"].

(** ** Facts *)
Lemma before_iff s m : chars_before is_sep s m = true <-> clear_before s m.
Proof.
  unfold chars_before, clear_before. split.
  - intros A i c Ei E. rewrite <- Ei, E in A. exact A.
  - intros A. destruct (m_start m) as [|i]; [reflexivity|]. destruct (nth_error s i) as [c|] eqn:E; [|reflexivity]. apply (A i c); auto.
Qed.
Lemma after_iff s m : chars_after is_sep s m = true <-> clear_after s m.
Proof.
  unfold chars_after, clear_after. split.
  - intros B c E. rewrite E in B. exact B.
  - intros B. destruct (nth_error s (m_end m)) as [c|] eqn:E; [|reflexivity]. apply B; reflexivity.
Qed.
Lemma not_before s m : chars_before is_sep s m = false -> 0 < m_start m.
Proof. unfold chars_before. destruct (m_start m); [discriminate|lia]. Qed.
Lemma not_after s m : chars_after is_sep s m = false -> m_end m < List.length s.
Proof. unfold chars_after. destruct (nth_error s (m_end m)) as [c|] eqn:E; [|discriminate]. intros _. apply nth_error_Some. congruence. Qed.
Lemma place_range s ms i p (P : mt -> Prop) : inside s ms -> i < List.length s -> (forall m, p m = true <-> P m) ->
  nonnil (range s ms i (i + 1) p) = true <-> at_place ms i P.
Proof.
  intros I B H. rewrite nonnil_ex. unfold at_place. split; intros (a & Ha); exists a.
  - apply range_In' in Ha; [|exact I|lia]. rewrite H in Ha. intuition lia.
  - apply range_In'; [exact I|lia|]. rewrite H. intuition lia.
Qed.
Lemma place_index ms i p (P : mt -> Prop) : (forall m, p m = true <-> P m) -> nonnil (filter p (at_index i ms)) = true <-> at_place ms i P.
Proof.
  intros H. rewrite nonnil_ex. unfold at_place, at_index. split; intros (a & Ha); exists a.
  - apply filter_In in Ha as [Ha Pa]. apply filter_In in Ha as [Ha C]. unfold covers in C. rewrite H in Pa. split; [exact Ha|]. split; [lia|exact Pa].
  - destruct Ha as (Ha & C & Pa). apply filter_In. rewrite H. split; [|exact Pa]. apply filter_In. split; [exact Ha|]. unfold covers. lia.
Qed.
Lemma audio_iff m : is_audio m = true <-> audio m.
Proof. apply smem_In. Qed.
Lemma is_text_iff t m : is_text t m = true <-> m_value m = MvStr t.
Proof. apply mval_eqb_eq. Qed.
Lemma merge_In ms a b x : distinct ms -> (forall y, In y a \/ In y b -> In y ms) -> In x (merge_new a b) <-> In x a \/ In x b.
Proof.
  intros D H. split; [apply merge_new_sub|]. intros Hx. destruct (proj2 (merge_new_key a b (mkey x))) as (y & Hy & E); [exists x; auto|].
  replace x with y; [exact Hy|]. apply (distinct_inj ms); auto. apply H. apply merge_new_sub, Hy.
Qed.
Lemma at_match_In ms p x : distinct ms -> m_start p < m_end p -> In x (at_match p ms) <-> In x ms /\ (m_start x <= m_start p < m_end x \/ m_start x <= m_end p - 1 < m_end x).
Proof.
  intros D Hp. unfold at_match, at_span. destruct (m_end p) as [|e] eqn:Ee; [lia|]. replace (S e - 1) with e by lia.
  rewrite (merge_In ms); [|exact D|unfold at_index; intros y [Hy|Hy]; apply filter_In in Hy; tauto]. unfold at_index. rewrite !filter_In. unfold covers. rewrite !Bool.andb_true_iff. split.
  - intros [[A B]|[A B]]; (split; [exact A|lia]).
  - intros [A [B|B]]; [left|right]; (split; [exact A|lia]).
Qed.
Lemma first_truthy ms (l : list mt) : nonempty ms -> (forall x, In x l -> In x ms) -> o_truthy (first l) = true <-> exists x, In x l.
Proof.
  intros NE H. destruct l as [|x l]; cbn [first hd_error o_truthy]; [split; [discriminate|intros (x & [])]|]. split; [intros _; exists x; left; reflexivity|].
  intros _. unfold m_truthy. apply Nat.ltb_lt. apply NE, H. left; reflexivity.
Qed.
Lemma at_match_first ms p q (P : mt -> Prop) : distinct ms -> nonempty ms -> m_start p < m_end p -> (forall m, q m = true <-> P m) ->
  o_truthy (first (filter q (at_match p ms))) = true <-> at_place ms (m_start p) P \/ at_place ms (m_end p - 1) P.
Proof.
  intros D NE Hp H. rewrite (first_truthy ms); [|exact NE|intros x Hx; apply filter_In in Hx as [Hx _]; apply at_match_In in Hx; tauto].
  unfold at_place. split.
  - intros (x & Hx). apply filter_In in Hx as [Hx Q]. apply at_match_In in Hx as [Hx C]; [|exact D|exact Hp]. apply H in Q. destruct C; [left|right]; exists x; auto.
  - intros [(x & Hx & C & Q)|(x & Hx & C & Q)]; exists x; apply filter_In; rewrite H, at_match_In by assumption; auto.
Qed.
Lemma previous_ex ms p q (P : mt -> Prop) : (forall m, q m = true <-> P m) -> nonnil (previous p ms q) = true <-> exists c, just_before ms p c /\ P c.
Proof.
  intros H. rewrite nonnil_ex. split; intros (c & Hc); exists c.
  - apply previous_In in Hc as (A & B & C & E). apply H in A. split; [split; auto|exact A].
  - destruct Hc as [(B & C & E) A]. apply previous_In. apply H in A. auto.
Qed.
Lemma next_ex ms p q (P : mt -> Prop) : nonempty ms -> (forall m, q m = true <-> P m) -> nonnil (next p ms q) = true <-> exists c, just_after ms p c /\ P c.
Proof.
  intros NE H. assert (Wf : forall y, In y ms -> m_start y <= m_end y) by (intros y Hy; specialize (NE y Hy); lia). rewrite nonnil_ex. split; intros (c & Hc); exists c.
  - apply next_In in Hc as (A & B & C & E); [|exact Wf]. apply H in A. split; [split; auto|exact A].
  - destruct Hc as [(B & C & E) A]. apply next_In; [exact Wf|]. apply H in A. auto.
Qed.
Lemma around_iff ms p q (P : mt -> Prop) : distinct ms -> nonempty ms -> m_start p < m_end p -> (forall m, q m = true <-> P m) ->
  o_truthy (first (filter q (at_match p ms))) || nonnil (previous p ms q) || nonnil (next p ms q) = true <-> around ms p P.
Proof.
  intros D NE Hp H. rewrite !Bool.orb_true_iff. rewrite (at_match_first ms p q P), (previous_ex ms p q P), (next_ex ms p q P) by assumption. unfold around. tauto.
Qed.
Lemma unless_iff context name rule ms ms' : unless_disabled context name rule ms = Ok ms' ->
  is_disabled context name = Ok true /\ ms' = ms \/ is_disabled context name = Ok false /\ ms' = rule ms.
Proof. unfold unless_disabled. destruct (is_disabled context name) as [[|]|e]; cbn [bind]; intros E; try discriminate; injection E as <-; auto. Qed.

(** ** C72. Audio properties stand alone or next to each other *)
Theorem C72_audio s ms m : distinct ms -> nonempty ms -> inside s ms ->
  In m (AudioValidator s ms) <-> In m ms /\
  (audio m -> (clear_before s m \/ at_place ms (m_start m - 1) audio) /\ (clear_after s m \/ at_place ms (m_end m) audio)).
Proof.
  intros D NE I. unfold AudioValidator.
  assert (R : forall x, In x (range_all s ms is_audio) <-> In x ms /\ audio x).
  { intros x. unfold range_all. rewrite max_end_inside by exact I. rewrite range_In' by auto. rewrite audio_iff. split; [tauto|]. intros [A B]. specialize (NE x A). destruct (I x A). repeat split; auto; lia. }
  rewrite remove_all_In; [|exact D|intros x Hx; apply filter_In in Hx as [Hx _]; apply R in Hx; tauto]. rewrite filter_In, R.
  assert (K : In m ms -> audio_alone s ms m = false <-> (clear_before s m \/ at_place ms (m_start m - 1) audio) /\ (clear_after s m \/ at_place ms (m_end m) audio)).
  { intros Hm. unfold audio_alone. rewrite Bool.orb_false_iff, <- before_iff, <- after_iff.
    assert (A : chars_before is_sep s m = false -> nonnil (range s ms (m_start m - 1) (m_start m) is_audio) = true <-> at_place ms (m_start m - 1) audio).
    { intros H. apply not_before in H. pose proof (I m Hm). replace (m_start m) with (m_start m - 1 + 1) at 2 by lia. apply place_range; [exact I|lia|apply audio_iff]. }
    assert (B : chars_after is_sep s m = false -> nonnil (range s ms (m_end m) (m_end m + 1) is_audio) = true <-> at_place ms (m_end m) audio).
    { intros H. apply not_after in H. apply place_range; [exact I|exact H|apply audio_iff]. }
    destruct (chars_before is_sep s m) eqn:EB; destruct (chars_after is_sep s m) eqn:EA; cbn [negb andb].
    - tauto.
    - rewrite <- (B eq_refl). destruct (nonnil (range s ms (m_end m) (m_end m + 1) is_audio)); cbn [negb]; intuition discriminate.
    - rewrite <- (A eq_refl). destruct (nonnil (range s ms (m_start m - 1) (m_start m) is_audio)); cbn [negb]; intuition discriminate.
    - rewrite <- (A eq_refl), <- (B eq_refl). destruct (nonnil (range s ms (m_end m) (m_end m + 1) is_audio)), (nonnil (range s ms (m_start m - 1) (m_start m) is_audio)); cbn [negb]; intuition discriminate. }
  split.
  - intros [Hm H]. split; [exact Hm|]. intros Ha. apply K; [exact Hm|]. destruct (audio_alone s ms m); [destruct H; auto|reflexivity].
  - intros [Hm H]. split; [exact Hm|]. intros [[_ Ha] E]. apply H in Ha. apply K in Ha; [|exact Hm]. congruence.
Qed.
Print Assumptions C72_audio.
Definition text_ex : str := lit "a.DTS-HD.MA.5.1-x".
Definition audio_ex : list mt := [simple 2 8 (lit "audio_codec") (MvStr (lit "DTS-HD")) []; simple 9 11 (lit "audio_profile") (MvStr (lit "Master Audio")) [lit "audio_profile.rule"; lit "DTS-HD"]; simple 11 12 (lit "title") (MvStr (lit ".")) []].
Example C72_ex : In (simple 2 8 (lit "audio_codec") (MvStr (lit "DTS-HD")) []) (AudioValidator text_ex audio_ex) /\
  ~ In (simple 2 5 (lit "audio_codec") (MvStr (lit "DTS")) []) (AudioValidator (lit "a DTSb") [simple 2 5 (lit "audio_codec") (MvStr (lit "DTS")) []]).
Proof. split; vm_compute; [left; reflexivity|intros []]. Qed.

(** the profile [p] is one of the codec, and the codec is around it *)
Definition profile_for (codec : str) (p : mt) : Prop := m_name p = lit "audio_profile" /\ In (lit "audio_profile.rule") (m_tags p) /\ In codec (m_tags p).
Definition is_codec (codec : str) (c : mt) : Prop := m_name c = lit "audio_codec" /\ m_value c = MvStr codec.
(** without its codec a profile goes; with it, everything else the profile overlaps goes *)
Theorem C72_profile codec context ms ms' : distinct ms -> nonempty ms -> AudioProfile codec context ms = Ok ms' ->
  is_disabled context (lit "audio_profile") = Ok true /\ ms' = ms \/
  is_disabled context (lit "audio_profile") = Ok false /\ forall m, In m ms' <-> In m ms /\
    (profile_for codec m -> around ms m (is_codec codec)) /\
    (forall p, In p ms -> profile_for codec p -> around ms p (is_codec codec) -> p <> m -> ~ overlapping p m).
Proof.
  intros D NE E. apply unless_iff in E as [E|[E ->]]; [left; exact E|right]. split; [exact E|]. intros m.
  assert (CI : forall c, codec_of codec c = true <-> is_codec codec c) by (intros c; unfold codec_of, is_codec; rewrite Bool.andb_true_iff, has_name_iff, is_text_iff; reflexivity).
  assert (PI : forall p, In p (filter (fun m => has_tag (lit "audio_profile.rule") m && has_tag codec m) (named (lit "audio_profile") ms)) <-> In p ms /\ profile_for codec p).
  { intros p. unfold profile_for. rewrite filter_In, named_In, Bool.andb_true_iff, !has_tag_iff. tauto. }
  assert (AI : forall p, In p ms -> profile_codec ms codec p = true <-> around ms p (is_codec codec)).
  { intros p Hp. unfold profile_codec. apply around_iff; auto. }
  assert (R : forall x, In x (profile_removed codec ms) <-> In x ms /\ (profile_for codec x /\ ~ around ms x (is_codec codec) \/ exists p, In p ms /\ profile_for codec p /\ around ms p (is_codec codec) /\ p <> x /\ overlapping p x)).
  { intros x. unfold profile_removed. rewrite in_concat. split.
    - intros (l & Hl & Hx). apply in_map_iff in Hl as (p & <- & Hp). apply PI in Hp as [Hp1 Hp2]. destruct (profile_codec ms codec p) eqn:EP.
      + apply conflicting_all in Hx as (X1 & X2 & X3); [|exact D|exact Hp1]. split; [exact X1|]. right. exists p. apply AI in EP; auto.
      + destruct Hx as [<-|[]]. split; [exact Hp1|]. left. split; [exact Hp2|]. intros H. apply AI in H; [congruence|exact Hp1].
    - intros [X1 [[X2 X3]|(p & P1 & P2 & P3 & P4 & P5)]].
      + eexists. split; [apply in_map_iff; exists x; split; [reflexivity|apply PI; auto]|]. destruct (profile_codec ms codec x) eqn:EP; [apply AI in EP; [destruct X3; exact EP|exact X1]|left; reflexivity].
      + eexists. split; [apply in_map_iff; exists p; split; [reflexivity|apply PI; auto]|]. rewrite (proj2 (AI p P1)) by exact P3. apply conflicting_all; auto. }
  rewrite remove_all_In; [|exact D|intros x Hx; apply R in Hx; tauto]. rewrite R. split.
  - intros [Hm H]. split; [exact Hm|]. split.
    + intros Hp. destruct (profile_codec ms codec m) eqn:EP; [apply AI; auto|]. destruct H. split; [exact Hm|]. left. split; [exact Hp|]. intros A. apply AI in A; [congruence|exact Hm].
    + intros p P1 P2 P3 P4 P5. apply H. split; [exact Hm|]. right. exists p. auto.
  - intros [Hm [H1 H2]]. split; [exact Hm|]. intros [_ [[A B]|(p & P1 & P2 & P3 & P4 & P5)]]; [apply B, H1, A|apply (H2 p); auto].
Qed.
Print Assumptions C72_profile.
Example C72_profile_ex : AudioProfile (lit "DTS-HD") [] audio_ex = Ok audio_ex /\
  AudioProfile (lit "AAC") [] [simple 9 11 (lit "audio_profile") (MvStr (lit "High Efficiency")) [lit "audio_profile.rule"; lit "AAC"]] = Ok [].
Proof. split; reflexivity. Qed.

(** HQ is an audio profile rather than another property when it is both *)
Theorem C72_hq context ms ms' : distinct ms -> HqConflict context ms = Ok ms' ->
  is_disabled context (lit "audio_profile") = Ok true /\ ms' = ms \/
  is_disabled context (lit "audio_profile") = Ok false /\ forall m, In m ms' <-> In m ms /\
    ~ (m_name m = lit "other" /\ exists a, In a ms /\ m_name a = lit "audio_profile" /\ m_value a = MvStr (lit "High Quality") /\ m_start a = m_start m /\ m_end a = m_end m).
Proof.
  intros D E. apply unless_iff in E as [E|[E ->]]; [left; exact E|right]. split; [exact E|]. intros m. rewrite remove_filter_In by exact D.
  assert (K : existsb (same_span m) (filter (is_text (lit "High Quality")) (named (lit "audio_profile") ms)) = true <->
    exists a, In a ms /\ m_name a = lit "audio_profile" /\ m_value a = MvStr (lit "High Quality") /\ m_start a = m_start m /\ m_end a = m_end m).
  { rewrite existsb_exists. split; intros (a & A).
    - destruct A as [A B]. apply filter_In in A as [A C]. apply named_In in A as [A1 A2]. apply is_text_iff in C. unfold same_span in B. exists a. repeat split; auto; lia.
    - destruct A as (A1 & A2 & A3 & A4 & A5). exists a. split; [apply filter_In; split; [apply named_In; auto|apply is_text_iff; exact A3]|]. unfold same_span. lia. }
  rewrite K. reflexivity.
Qed.
Print Assumptions C72_hq.
Example C72_hq_ex : HqConflict [] [simple 2 4 (lit "audio_profile") (MvStr (lit "High Quality")) []; simple 2 4 (lit "other") (MvStr (lit "High Quality")) []] = Ok [simple 2 4 (lit "audio_profile") (MvStr (lit "High Quality")) []].
Proof. reflexivity. Qed.

(** weak channels stay only right after an audio codec *)
Theorem C72_channels context s ms ms' : distinct ms -> inside s ms -> nonempty ms -> AudioChannelsValidator context s ms = Ok ms' ->
  is_disabled context (lit "audio_channels") = Ok true /\ ms' = ms \/
  is_disabled context (lit "audio_channels") = Ok false /\ forall m, In m ms' <-> In m ms /\
    (In (lit "weak-audio_channels") (m_tags m) -> 0 < m_start m /\ at_place ms (m_start m - 1) (fun c => m_name c = lit "audio_codec")).
Proof.
  intros D I NE E. apply unless_iff in E as [E|[E ->]]; [left; exact E|right]. split; [exact E|]. intros m.
  rewrite remove_all_In; [|exact D|intros x Hx; apply filter_In in Hx as [Hx _]; unfold tagged in Hx; apply filter_In in Hx; tauto].
  assert (K : In m ms -> nonnil (match m_start m with O => [] | S i => range s ms i (S i) (has_name (lit "audio_codec")) end) = true <-> 0 < m_start m /\ at_place ms (m_start m - 1) (fun c => m_name c = lit "audio_codec")).
  { intros Hm. pose proof (I m Hm). pose proof (NE m Hm). destruct (m_start m) as [|i] eqn:Es; [cbn; split; [discriminate|lia]|]. replace (S i - 1) with i by lia. replace (S i) with (i + 1) at 1 by lia.
    rewrite (place_range s ms i _ (fun c => m_name c = lit "audio_codec")); [intuition lia|exact I|lia|intros c; apply has_name_iff]. }
  unfold tagged. rewrite !filter_In, has_tag_iff, Bool.negb_true_iff. split; intros [Hm H]; (split; [exact Hm|]).
  - intros T. apply K; [exact Hm|]. destruct (nonnil _); [reflexivity|destruct H; auto].
  - intros [[_ T] F]. apply H in T. apply K in T; [congruence|exact Hm].
Qed.
Print Assumptions C72_channels.
Example C72_channels_ex : AudioChannelsValidator [] (lit "a AAC2 2") [simple 2 5 (lit "audio_codec") (MvStr (lit "AAC")) []; simple 5 6 (lit "audio_channels") (MvStr (lit "2.0")) [lit "weak-audio_channels"]; simple 7 8 (lit "audio_channels") (MvStr (lit "2.0")) [lit "weak-audio_channels"]]
  = Ok [simple 2 5 (lit "audio_codec") (MvStr (lit "AAC")) []; simple 5 6 (lit "audio_channels") (MvStr (lit "2.0")) [lit "weak-audio_channels"]].
Proof. reflexivity. Qed.
(** in a conflict with a profile or channels the codec stays, whichever of the two is asked *)
Theorem C72_solver a b : m_name a = lit "audio_codec" -> m_name b = lit "audio_profile" \/ m_name b = lit "audio_channels" ->
  audio_priority a b = VSecond /\ audio_priority b a = VFirst.
Proof.
  intros Ha Hb. unfold audio_priority, named_in, has_name. rewrite Ha. destruct Hb as [-> | ->]; split; reflexivity.
Qed.
Print Assumptions C72_solver.

(** ** C73. Video codecs and profiles *)
(** a codec stays if on each side there is a separator or a match that may touch it. The place looked at after the codec is the
    second one, not the first *)
Theorem C73_codec context s ms ms' : distinct ms -> ValidateVideoCodec context s ms = Ok ms' ->
  is_disabled context (lit "video_codec") = Ok true /\ ms' = ms \/
  is_disabled context (lit "video_codec") = Ok false /\ forall m, In m ms' <-> In m ms /\
    (m_name m = lit "video_codec" -> (clear_before s m \/ at_place ms (m_start m - 1) (tag "video-codec-prefix")) /\ (clear_after s m \/ at_place ms (m_end m + 1) (tag "video-codec-suffix"))).
Proof.
  intros D E. apply unless_iff in E as [E|[E ->]]; [left; exact E|right]. split; [exact E|]. intros m. rewrite remove_filter_In by exact D.
  unfold codec_alone. rewrite <- before_iff, <- after_iff.
  rewrite <- (place_index ms (m_start m - 1) (has_tag (lit "video-codec-prefix")) (tag "video-codec-prefix")) by (intros x; apply has_tag_iff).
  rewrite <- (place_index ms (m_end m + 1) (has_tag (lit "video-codec-suffix")) (tag "video-codec-suffix")) by (intros x; apply has_tag_iff).
  destruct (chars_before is_sep s m), (chars_after is_sep s m), (nonnil (filter (has_tag (lit "video-codec-prefix")) _)), (nonnil (filter (has_tag (lit "video-codec-suffix")) _)); cbn [negb andb orb]; intuition discriminate.
Qed.
Print Assumptions C73_codec.
Definition codec_ex : mt := simple 2 6 (lit "video_codec") (MvStr (lit "H.264")) [].
Example C73_ex : ValidateVideoCodec [] (lit "a x264-b") [codec_ex] = Ok [codec_ex] /\ ValidateVideoCodec [] (lit "a x264b") [codec_ex] = Ok [].
Proof. split; reflexivity. Qed.
(** the limit: a suffix of one character is not seen although it touches the codec, one further on is *)
Theorem C73_limit : exists s ms sfx, ms = [codec_ex; sfx] /\ m_start sfx = m_end codec_ex /\ tag "video-codec-suffix" sfx /\ ValidateVideoCodec [] s ms = Ok [sfx] /\
  exists s' sfx', m_start sfx' = m_end codec_ex + 1 /\ tag "video-codec-suffix" sfx' /\ ~ clear_after s' codec_ex /\ ValidateVideoCodec [] s' [codec_ex; sfx'] = Ok [codec_ex; sfx'].
Proof.
  exists (lit "a x264s"), [codec_ex; simple 6 7 (lit "other") (MvStr (lit "s")) [lit "video-codec-suffix"]], (simple 6 7 (lit "other") (MvStr (lit "s")) [lit "video-codec-suffix"]).
  split; [reflexivity|]. split; [reflexivity|]. split; [left; reflexivity|]. split; [reflexivity|].
  exists (lit "a x264zs"), (simple 7 8 (lit "other") (MvStr (lit "s")) [lit "video-codec-suffix"]). split; [reflexivity|]. split; [left; reflexivity|]. split; [|reflexivity].
  intros H. specialize (H 122%N eq_refl). discriminate.
Qed.
Print Assumptions C73_limit.
(** a profile that needs a codec stays only with one *)
Theorem C73_profile context ms ms' : distinct ms -> nonempty ms -> VideoProfile context ms = Ok ms' ->
  is_disabled context (lit "video_profile") = Ok true /\ ms' = ms \/
  is_disabled context (lit "video_profile") = Ok false /\ forall m, In m ms' <-> In m ms /\
    (m_name m = lit "video_profile" -> tag "video_profile.rule" m -> around ms m (fun c => m_name c = lit "video_codec")).
Proof.
  intros D NE E. apply unless_iff in E as [E|[E ->]]; [left; exact E|right]. split; [exact E|]. intros m. rewrite remove_filter_In by exact D.
  rewrite Bool.andb_true_iff, has_tag_iff, Bool.negb_true_iff. fold (tag "video_profile.rule" m).
  assert (K : In m ms -> video_profile_codec ms m = true <-> around ms m (fun c => m_name c = lit "video_codec")).
  { intros Hm. apply around_iff; auto. intros c. apply has_name_iff. }
  split; intros [Hm H]; (split; [exact Hm|]); specialize (K Hm).
  - intros A B. apply K. destruct (video_profile_codec ms m); [reflexivity|]. destruct H. auto.
  - intros (A & B & C). apply H in B; [|exact A]. apply K in B. congruence.
Qed.
Print Assumptions C73_profile.
Example C73_profile_ex : VideoProfile [] [codec_ex; simple 7 9 (lit "video_profile") (MvStr (lit "High")) [lit "video_profile.rule"]] = Ok [codec_ex; simple 7 9 (lit "video_profile") (MvStr (lit "High")) [lit "video_profile.rule"]] /\
  VideoProfile [] [simple 7 9 (lit "video_profile") (MvStr (lit "High")) [lit "video_profile.rule"]] = Ok [].
Proof. split; reflexivity. Qed.
