(** Model of the rules of guessit/rules/properties/release_group.py. The formatter of the names, [clean] (see GroupName.v), is an
    argument of the rules in the code too (lines 103-106, 217-220). *)
From Verif Require Import Py Text Sort Formatters Common Rebulk Processors Title EpisodeTitle Episodes EpisodeRules Technical.
From Coq Require Import Arith.

(** [cleanup] never fails (C18) *)
Definition cleaned (t : str) : str := match cleanup t with Ok u => u | Err _ => [] end.
Definition starts_dash (t : str) : bool := match t with c :: _ => N.eqb c 45 | [] => false end.
(** a hole, as a match *)
Definition hole_match (s : str) (h : span) : mt := mk_mt (fst h) (snd h) [] (MvStr (raw s h)) [] false (fst h) (snd h) None [].

Section ReleaseGroup.
  Context (clean : str -> str).
  (** a release group between two positions *)
  Definition group_match (s : str) (tags : list str) (a b : nat) : mt := mk_mt a b (lit "release_group") (MvStr (clean (slice a b s))) tags false a b None [].

  (** ** lines 84-203 [DashSeparatedReleaseGroup] *)
  (** lines 131-155: the loop. Simplification: the text of a match is not empty, so that [match.raw[0]] does not fail *)
  Definition seen (m : mt) : bool := negb (m_private m) && negb (has_tag (lit "expected") m).
  Fixpoint dotted (fuel : nat) (s : str) (ms : list mt) (start : nat) (head : bool) (m : mt) : bool :=
    match fuel with
    | O => false
    | S fuel' =>
        match truthy_o (last_o (range s ms start (m_start m) seen)) with
        | None => false
        | Some c =>
            let gap := slice (m_end c) (m_start m) s in
            let sep := if negb (nonnil gap) && starts_dash (m_raw s m) then lit "-" else gap in
            if head then (if str_eqb sep (lit "-") then dotted fuel' s ms start false c else false)
            else if str_eqb sep (lit ".") then true else dotted fuel' s ms start false c
        end
    end.
  (** lines 108-155 [is_valid], at the end and at the start of a part *)
  Definition in_group (markers : list mt) (c : mt) : list mt := filter (has_name (lit "group")) (at_match c markers).
  Definition valid_end (s : str) (markers ms : list mt) (start : nat) (c : mt) : bool :=
    negb (match truthy_o (first (in_group markers c)) with
          | Some g => nonnil (filter (fun m => negb (m_private m) && negb (same_span m c)) (at_match g ms))
          | None => false
          end) && dotted (S (m_start c)) s ms start true c.
  Definition valid_start (s : str) (markers ms : list mt) (e : nat) (c : mt) : bool :=
    (1 <? List.length (m_raw s c)) && negb (nonnil (in_group markers c)) &&
    match first (filter (fun h => fst h =? m_end c) (holes s ms (m_end c) e never None)) with
    | Some h => (fst h <? snd h) && starts_dash (raw s h) && negb (cmem 45 (tl (raw s h))) && cmem 46 (raw s h) && negb (cmem 32 (raw s h))
    | None => false
    end.
  (** lines 157-181 [detect] *)
  Definition candidate_match (s : str) (m : mt) : bool :=
    negb (m_private m) && negb (has_name (lit "other") m && has_tag (lit "not-a-release-group") m) && negb (cmem 45 (m_raw s m)) && str_eqb (strip is_space (m_raw s m)) (m_raw s m).
  Definition real_end (ms : list mt) (e : nat) : nat :=
    match truthy_o (first (filter (has_name (lit "container")) (ending e ms))) with Some c => m_start c | None => e end.
  Definition candidate_end (s : str) (ms : list mt) (start e : nat) : option mt :=
    match truthy_o (first (filter (candidate_match s) (ending e ms))) with
    | Some c => Some c
    | None => option_map (hole_match s) (last_o (filter (fun h => (snd h =? e) && negb (forallb is_sep (raw s h)) && starts_dash (raw s h)) (holes s ms start e never (Some seps))))
    end.
  Definition candidate_start (s : str) (ms : list mt) (start e : nat) : option mt :=
    option_map (hole_match s) (first (filter (fun h => (fst h =? start) && negb (forallb is_sep (raw s h))) (holes s ms start e never (Some seps)))).
  Definition keep_if {A} (p : A -> bool) (o : option A) : option A := match o with Some x => if p x then Some x else None | None => None end.
  Definition detect_end (s : str) (markers ms : list mt) (part : mt) : option mt :=
    let e := real_end ms (m_end part) in keep_if (valid_end s markers ms (m_start part)) (candidate_end s ms (m_start part) e).
  Definition detect_start (s : str) (markers ms : list mt) (part : mt) : option mt :=
    keep_if (valid_start s markers ms (m_end part)) (candidate_start s ms (m_start part) (m_end part)).
  (** lines 183-203 [when] *)
  Definition dash_part (s : str) (markers ms : list mt) (part : mt) : change :=
    let found := match detect_end s markers ms part with
                 | Some c => Some (c, at_match c ms)
                 | None => match detect_start s markers ms part with Some c => Some (c, []) | None => None end
                 end in
    match found with
    | Some (c, rem) => (rem, if nonnil (clean (slice (m_start c) (m_end c) s)) then [group_match s [] (m_start c) (m_end c)] else [])
    | None => ([], [])
    end.
  Fixpoint dash_parts (s : str) (markers ms : list mt) (parts : list mt) : change :=
    match parts with
    | [] => ([], [])
    | part :: r => let c := dash_part s markers ms part in if nonnil (fst c) || nonnil (snd c) then c else dash_parts s markers ms r
    end.
  Definition DashSeparatedReleaseGroup (s : str) (markers ms : list mt) : list mt :=
    if nonnil (named (lit "release_group") ms) then ms else apply_change (dash_parts s markers ms (parts_of markers)) ms.

  (** ** lines 75-82, 206-301 [SceneReleaseGroup] *)
  Definition scene_previous_names : list str :=
    [lit "video_codec"; lit "source"; lit "video_api"; lit "audio_codec"; lit "audio_profile"; lit "video_profile"; lit "audio_channels"; lit "screen_size"; lit "other";
     lit "container"; lit "language"; lit "subtitle_language"; lit "subtitle_language.suffix"; lit "subtitle_language.prefix"; lit "language.suffix"].
  Definition is_previous (m : mt) : bool :=
    if smem (m_name m) scene_previous_names then negb (has_tag (lit "no-release-group-prefix") m) else has_tag (lit "release-group-prefix") m.
  Definition within (part m : mt) : bool := (m_start part <=? m_start m) && (m_end m <=? m_end part).
  Definition extra_title (ms : list mt) (part m : mt) : bool := mmem m (tl (filter (within part) (named (lit "title") ms))).
  Definition scene_hole (s : str) (ms : list mt) (part : mt) : option span :=
    last_o (filter (fun h => nonnil (cleaned (clean (raw s h)))) (holes s ms (m_start part) (m_end part + 1) (extra_title ms part) None)).
  (** lines 262-280 *)
  Definition scene_before (s : str) (ms : list mt) (part : mt) (h : span) : bool :=
    match truthy_o (first (previous (hole_match s h) ms (fun m => (m_start part <=? m_start m) && (negb (m_private m) || is_previous m)))) with
    | Some p => is_previous p && forallb is_sep (slice (m_end p) (fst h) s)
    | None => false
    end.
  (** lines 282-292. Simplification: that the marker of the group keeps the formatter has no effect: the rule after this one does
      nothing when this one finds a group *)
  Definition scene_match (s : str) (markers : list mt) (h : span) : mt :=
    match truthy_o (first (in_group markers (hole_match s h))) with
    | Some g => if str_eqb (clean (m_raw s g)) (clean (raw s h)) then group_match s [lit "anime"] (m_start g + 1) (m_end g - 1)
                else group_match s [lit "scene"] (fst h) (snd h)
    | None => group_match s [lit "scene"] (fst h) (snd h)
    end.
  (** one part: the release group and the titles to remove. The truth value of the hole is its length *)
  Definition scene_part (s : str) (markers ms : list mt) (part : mt) : option (mt * list mt) :=
    if nonnil (filter (within part) (named (lit "release_group") ms)) then None
    else match scene_hole s ms part with
         | Some h => if (fst h <? snd h) && scene_before s ms part h && negb (int_coercable (strip is_sep (clean (raw s h)))) then
                       let g := scene_match s markers h in Some (g, range s ms (m_start g) (m_end g) (extra_title ms part))
                     else None
         | None => None
         end.
  Definition scene_step (s : str) (markers : list mt) (st : list mt * list mt) (part : mt) : list mt * list mt :=
    match scene_part s markers (fst st) part with
    | Some (g, rem) => (remove_all rem (fst st), snd st ++ [g])
    | None => st
    end.
  Definition SceneReleaseGroup (s : str) (markers ms : list mt) : list mt :=
    let st := fold_left (scene_step s markers) (marker_sorted s ms comparator_predicate (parts_of markers)) (ms, []) in
    append_all (snd st) (fst st).

  (** ** lines 304-350 [AnimeReleaseGroup] *)
  Definition weak_language (m : mt) : bool := has_tag (lit "weak-language") m.
  Definition empty_group (s : str) (ms : list mt) (g : mt) : bool :=
    has_name (lit "group") g && negb (nonnil (range s ms (m_start g) (m_end g) (fun m => negb (weak_language m)))) &&
    nonnil (strip is_sep (m_raw s g)) && negb (int_coercable (strip is_sep (m_raw s g))).
  Definition anime_match (s : str) (g : mt) : mt :=
    mk_mt (m_start g) (m_end g) (lit "release_group") (MvStr (slice (m_raw_start g + 1) (m_raw_end g - 1) s)) [lit "anime"] (m_private g) (m_raw_start g + 1) (m_raw_end g - 1) (m_parent g) (m_children g).
  Definition anime_part (s : str) (markers ms : list mt) (part : mt) : change :=
    match truthy_o (first (range s markers (m_start part) (m_end part) (empty_group s ms))) with
    | Some g => (range s ms (m_start g) (m_end g) weak_language, [anime_match s g])
    | None => ([], [])
    end.
  Definition AnimeReleaseGroup (s : str) (markers ms : list mt) : list mt :=
    if nonnil (named (lit "release_group") ms) then ms
    else apply_change (joins (map (anime_part s markers ms) (marker_sorted s ms comparator_predicate (parts_of markers)))) ms.
End ReleaseGroup.
