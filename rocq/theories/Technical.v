(** Model of the rules of guessit/rules/properties/audio_codec.py, video_codec.py, streaming_service.py, source.py, website.py,
    container.py, and of ValidateStreamingServiceNeighbor of other.py. [ini m] is the initiator of [m] and [kids m] are its children. *)
From Verif Require Import Py Text Sort Formatters Common Rebulk Title EpisodeTitle Episodes EpisodeRules Language.
From Coq Require Import Arith.

Definition named_in (l : list str) (m : mt) : bool := smem (m_name m) l.
Definition is_text (t : str) (m : mt) : bool := mval_eqb (m_value m) (MvStr t).
(** a rule whose [enabled] looks at a property *)
Definition unless_disabled (context : dict) (name : str) (rule : list mt -> list mt) (ms : list mt) : res (list mt) :=
  d <- is_disabled context name; Ok (if (d : bool) then ms else rule ms).

(** ** conflict solvers *)
(** audio_codec.py:29-42 [audio_codec_priority] *)
Definition audio_priority (a b : mt) : verdict :=
  if has_name (lit "audio_codec") a && named_in [lit "audio_profile"; lit "audio_channels"] b then VSecond
  else if named_in [lit "audio_profile"; lit "audio_channels"] a && has_name (lit "audio_codec") b then VFirst
  else VDefault.
(** ** audio_codec.py *)
Definition audio_names : list str := [lit "audio_codec"; lit "audio_profile"; lit "audio_channels"].
Definition is_audio (m : mt) : bool := named_in audio_names m.
(** lines 70-98 [AudioValidatorRule] *)
Definition audio_alone (s : str) (ms : list mt) (a : mt) : bool :=
  (negb (chars_before is_sep s a) && negb (nonnil (range s ms (m_start a - 1) (m_start a) is_audio))) ||
  (negb (chars_after is_sep s a) && negb (nonnil (range s ms (m_end a) (m_end a + 1) is_audio))).
Definition AudioValidator (s : str) (ms : list mt) : list mt := remove_all (filter (audio_alone s ms) (range_all s ms is_audio)) ms.
(** lines 101-138 [AudioProfileRule] and its four instances, by the codec *)
Definition codec_of (codec : str) (m : mt) : bool := has_name (lit "audio_codec") m && is_text codec m.
Definition profile_codec (ms : list mt) (codec : str) (p : mt) : bool :=
  o_truthy (first (filter (codec_of codec) (at_match p ms))) || nonnil (previous p ms (codec_of codec)) || nonnil (next p ms (codec_of codec)).
Definition profile_removed (codec : str) (ms : list mt) : list mt :=
  List.concat (map (fun p => if profile_codec ms codec p then conflicting p ms (fun _ => true) else [p])
    (filter (fun m => has_tag (lit "audio_profile.rule") m && has_tag codec m) (named (lit "audio_profile") ms))).
Definition AudioProfile (codec : str) (context : dict) (ms : list mt) : res (list mt) :=
  unless_disabled context (lit "audio_profile") (fun ms => remove_all (profile_removed codec ms) ms) ms.
(** lines 177-191 [HqConflictRule] *)
Definition same_span (a b : mt) : bool := (m_start a =? m_start b) && (m_end a =? m_end b).
Definition HqConflict (context : dict) (ms : list mt) : res (list mt) :=
  unless_disabled context (lit "audio_profile") (fun ms =>
    remove_all (filter (fun m => existsb (same_span m) (filter (is_text (lit "High Quality")) (named (lit "audio_profile") ms))) (named (lit "other") ms)) ms) ms.
(** lines 194-212 [AudioChannelsValidatorRule] *)
Definition AudioChannelsValidator (context : dict) (s : str) (ms : list mt) : res (list mt) :=
  unless_disabled context (lit "audio_channels") (fun ms =>
    remove_all (filter (fun a => negb (nonnil (match m_start a with O => [] | S i => range s ms i (S i) (has_name (lit "audio_codec")) end))) (tagged (lit "weak-audio_channels") ms)) ms) ms.

(** ** video_codec.py *)
(** lines 86-106 [ValidateVideoCodec] *)
Definition codec_alone (s : str) (ms : list mt) (c : mt) : bool :=
  (negb (chars_before is_sep s c) && negb (nonnil (filter (has_tag (lit "video-codec-prefix")) (at_index (m_start c - 1) ms)))) ||
  (negb (chars_after is_sep s c) && negb (nonnil (filter (has_tag (lit "video-codec-suffix")) (at_index (m_end c + 1) ms)))).
Definition ValidateVideoCodec (context : dict) (s : str) (ms : list mt) : res (list mt) :=
  unless_disabled context (lit "video_codec") (fun ms => remove_all (filter (codec_alone s ms) (named (lit "video_codec") ms)) ms) ms.
(** lines 109-130 [VideoProfileRule] *)
Definition video_profile_codec (ms : list mt) (p : mt) : bool :=
  o_truthy (first (filter (has_name (lit "video_codec")) (at_match p ms))) || nonnil (previous p ms (has_name (lit "video_codec"))) || nonnil (next p ms (has_name (lit "video_codec"))).
Definition VideoProfile (context : dict) (ms : list mt) : res (list mt) :=
  unless_disabled context (lit "video_profile") (fun ms =>
    remove_all (filter (fun p => has_tag (lit "video_profile.rule") p && negb (video_profile_codec ms p)) (named (lit "video_profile") ms)) ms) ms.

(** ** streaming_service.py:37-73 [ValidateStreamingService] *)
Definition far_after (s : str) (ms : list mt) (v : mt) (o : option mt) : bool :=
  match o with Some n => negb (m_truthy n) || text_between s ms (m_end v) (m_start n) | None => true end.
Definition far_before (s : str) (ms : list mt) (v : mt) (o : option mt) : bool :=
  match o with Some p => negb (m_truthy p) || text_between s ms (m_end p) (m_start v) | None => true end.
Definition service_alone (s : str) (ini : mt -> mt) (kids : mt -> list mt) (ms : list mt) (v : mt) : bool :=
  negb (m_truthy (ini v) && nonnil (named (lit "other") (kids (ini v)))) &&
  (far_after s ms v (first (next v ms (has_tag (lit "streaming_service.suffix")))) || negb (chars_before is_sep s v)) &&
  (far_before s ms v (first (previous v ms (has_tag (lit "streaming_service.prefix")))) || negb (chars_after is_sep s v)).
Definition services_removed (s : str) (ini : mt -> mt) (kids : mt -> list mt) (ms : list mt) : list mt :=
  List.concat (map (fun v => if service_alone s ini kids ms v then [v]
                             else if is_text (lit "Comedy Central") v then filter (is_text (lit "Criterion")) (named (lit "edition") ms) else [])
    (named (lit "streaming_service") ms)).
Definition ValidateStreamingService (s : str) (ini : mt -> mt) (kids : mt -> list mt) (ms : list mt) : list mt :=
  remove_all (services_removed s ini kids ms) ms.

(** ** other.py:247-281 [ValidateStreamingServiceNeighbor] *)
Definition neighbour_alone (s : str) (ms : list mt) (i : mt) : bool :=
  if negb (chars_after is_sep s i) then
    negb (has_tag (lit "streaming_service.prefix") i && negb (far_after s ms i (first (next i ms (has_name (lit "streaming_service"))))))
  else if negb (chars_before is_sep s i) then
    negb (has_tag (lit "streaming_service.suffix") i && negb (far_before s ms i (first (previous i ms (has_name (lit "streaming_service"))))))
  else false.
Definition ValidateStreamingServiceNeighbor (s : str) (ini : mt -> mt) (kids : mt -> list mt) (ms : list mt) : list mt :=
  remove_all (List.concat (map (fun m => if neighbour_alone s ms (ini m) then kids (ini m) ++ [ini m] else [])
    (filter (fun m => negb (has_name (lit "source") (ini m)) && (has_tag (lit "streaming_service.prefix") m || has_tag (lit "streaming_service.suffix") m))
      (named (lit "other") ms)))) ms.

(** ** source.py *)
(** lines 175-203 [ValidateSourcePrefixSuffix]; the range looked at before the source goes from [start - 1] to [start - 2] *)
Definition source_alone (s : str) (ms : list mt) (i : mt) : bool :=
  (negb (chars_before is_sep s i) && negb (nonnil (range s ms (m_start i - 1) (m_start i - 2) (has_tag (lit "source-prefix"))))) ||
  (negb (chars_after is_sep s i) && negb (nonnil (range s ms (m_end i) (m_end i + 1) (has_tag (lit "source-suffix"))))).
Definition ValidateSource (s : str) (ini : mt -> mt) (kids : mt -> list mt) (markers ms : list mt) : list mt :=
  remove_all (List.concat (map (fun part => List.concat (map (fun m => if source_alone s ms (ini m) then kids (ini m) ++ [ini m] else [])
    (in_part_of s ms part (has_name (lit "source"))))) (parts_of markers))) ms.
(** lines 206-230 [ValidateWeakSource] *)
Definition weak_source (s : str) (ms : list mt) (part m : mt) : bool :=
  has_tag (lit "weak.source") m && nonnil (range s ms (m_end m) (m_end part) (has_name (lit "source"))) && text_between s ms (m_start part) (m_start m).
Definition ValidateWeakSource (s : str) (kids : mt -> list mt) (markers ms : list mt) : list mt :=
  remove_all (List.concat (map (fun part => List.concat (map (fun m => if weak_source s ms part m then kids m ++ [m] else [])
    (in_part_of s ms part (has_name (lit "source"))))) (parts_of markers))) ms.
(** lines 120-172 [UltraHdBlurayRule]. The match of Ultra HD is made private in place, before the next one is looked for. *)
Definition make_private (o : mt) (ms : list mt) : list mt := map (fun x => if mt_eqb o x then set_private x else x) ms.
Definition ultra_hd (m : mt) : bool := negb (m_private m) && has_name (lit "other") m && is_text (lit "Ultra HD") m.
Definition blu_ray (m : mt) : bool := negb (m_private m) && has_name (lit "source") m && is_text (lit "Blu-ray") m.
Definition uhd_range (s : str) (ms : list mt) (a b : nat) : bool :=
  negb (text_between s ms a b) &&
  negb (nonnil (range s ms a b (fun m => negb (m_private m) && (negb (named_in [lit "screen_size"; lit "color_depth"] m) && (negb (has_name (lit "other") m) || negb (has_tag (lit "uhdbluray-neighbor") m)))))).
Definition truthy_o (o : option mt) : option mt := match o with Some m => if m_truthy m then Some m else None | None => None end.
(** lines 149-158: whether the source is an Ultra HD one, and the match made private *)
Definition has_2160p (s : str) (ms : list mt) (part : mt) : bool := nonnil (in_part_of s ms part (fun x => has_name (lit "screen_size") x && is_text (lit "2160p") x)).
Definition uhd_after (s : str) (ms : list mt) (part m : mt) : bool * option mt :=
  match truthy_o (first (range s ms (m_end m) (m_end part) ultra_hd)) with
  | Some o => if uhd_range s ms (m_end m) (m_start o) then (true, Some o) else (has_2160p s ms part, Some o)
  | None => (has_2160p s ms part, None)
  end.
Definition uhd_other (s : str) (ms : list mt) (part m : mt) : bool * option mt :=
  match truthy_o (last_o (range s ms (m_start part) (m_start m) ultra_hd)) with
  | Some o => if uhd_range s ms (m_end o) (m_start m) then (true, Some o) else uhd_after s ms part m
  | None => uhd_after s ms part m
  end.
Definition uhd_step (s : str) (part : mt) (st : list mt * change) (m : mt) : list mt * change :=
  match uhd_other s (fst st) part m with
  | (false, _) => st
  | (true, o) => (match o with Some x => make_private x (fst st) | None => fst st end,
                  (fst (snd st) ++ [m], snd (snd st) ++ [set_value m (MvStr (lit "Ultra HD Blu-ray"))]))
  end.
Definition uhd_part (s : str) (st : list mt * change) (part : mt) : list mt * change := fold_left (uhd_step s part) (in_part_of s (fst st) part blu_ray) st.
Definition UltraHdBluray (s : str) (markers ms : list mt) : list mt :=
  let st := fold_left (uhd_part s) (parts_of markers) (ms, ([], [])) in
  apply_change (snd st) (fst st).

(** ** website.py *)
(** lines 60-91 [PreferTitleOverWebsite]. Simplification: the value is a text; [lower] is ASCII *)
Definition safe_website (safe : list str) (m : mt) : bool := match m_value m with MvStr t => existsb (fun p => startswith p (lower t)) safe | _ => false end.
Definition website_title (safe : list str) (markers ms : list mt) (w : mt) : bool :=
  negb (safe_website safe w) &&
  o_truthy (first (next w ms (named_in [lit "season"; lit "episode"; lit "year"]))) &&
  negb (o_truthy (first (filter (has_name (lit "group")) (at_match w markers)))).
Definition PreferTitleOverWebsite (safe : list str) (markers ms : list mt) : list mt :=
  remove_all (filter (website_title safe markers ms) (named (lit "website") ms)) ms.
