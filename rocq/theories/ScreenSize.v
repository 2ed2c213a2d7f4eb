(** Model of guessit/rules/properties/screen_size.py, the rules (the patterns are not modelled). *)
From Verif Require Import Py Text Numeral Quantity Common Rebulk.
From Coq Require Import Arith QArith.
Local Open Scope nat_scope.

(** screen_size.py:81-84 the frame rate children, with their new formatter. Simplification: the formatter is applied at once *)
Definition frame_rate_match (s : str) (m : mt) (c : child) : res mt :=
  q <- fromstring FrameRate (slice (c_start c) (c_end c) s);
  Ok (mk_mt (c_start c) (c_end c) (c_name c)
        (MvQuant (match q_magnitude q with MInt n => inject_Z (Z.of_N n) | MFloat x => Qred x end) (q_units q))
        (m_tags m) false (c_start c) (c_end c) (Some (mk_p (m_start m) (m_end m) (m_name m) (m_tags m))) []).
Definition frame_rates (context : list (key * val)) (s : str) (m : mt) : res (list mt) :=
  off <- is_disabled context (lit "frame_rate");
  if off then Ok [] else mapM (frame_rate_match s m) (filter (fun c => str_eqb (c_name c) (lit "frame_rate")) (m_children m)).
(** screen_size.py:95, 98 [round(width / height, 3)]. Simplification: the exact ratio instead of the float; ties are rounded up *)
Definition round3 (w h : Z) : Q := Qred (Qmake ((2000 * w + h) / (2 * h))%Z 1000).
(** screen_size.py:103 [min_ar < calculated_ar < max_ar] *)
Definition within (lo hi : Q) (w h : Z) : bool :=
  negb (Qle_bool (inject_Z w / inject_Z h) lo) && negb (Qle_bool hi (inject_Z w / inject_Z h)).
(** screen_size.py:80-110 what is done for one screen size: its new value and the matches to append.
    The value of [match] is changed in place. Simplification: exact rationals; for widths and heights of four digits
    at most and the configured limits, comparing the floats gives the same result *)
Definition post_one (context : list (key * val)) (s : str) (standard : list str) (lo hi : Q) (m : mt) : res (mt * list mt) :=
  rates <- frame_rates context s m;
  match child_text s m (lit "height") with
  | None => Ok (m, rates)
  | Some height =>
      let scan_type := lower (match child_text s m (lit "scan_type") with Some (c :: r) => c :: r | _ => lit "p" end) in
      match child_text s m (lit "width") with
      | None => Ok (set_value m (MvStr (height ++ scan_type)), rates)
      | Some width =>
          if (dec height =? 0)%Z then Err ZeroDivisionError
          else
            let aspect_ratio := simple (m_start m) (m_end m) (lit "aspect_ratio") (MvFloat (round3 (dec width) (dec height))) [] in
            off <- is_disabled context (lit "aspect_ratio");
            let to_append := if off then rates else rates ++ [aspect_ratio] in
            if smem height standard && within lo hi (dec width) (dec height)
            then Ok (set_value m (MvStr (height ++ scan_type)), to_append)
            else Ok (set_value m (MvStr (width ++ lit "x" ++ height)), to_append)
      end
  end.
(** screen_size.py:78-112 [PostProcessScreenSize] with AppendMatch *)
Definition PostProcess (context : list (key * val)) (s : str) (standard : list str) (lo hi : Q) (ms : list mt) : res (list mt) :=
  l <- mapM (fun m => if has_name (lit "screen_size") m then post_one context s standard lo hi m else Ok (m, [])) ms;
  Ok (append_all (flat_map snd l) (map fst l)).

(** screen_size.py:119-127 [ScreenSizeOnlyOne.when]; [len(set(values)) > 1] says that two values differ *)
Definition several_values (l : list mt) : bool :=
  match l with [] => false | x :: r => existsb (fun y => negb (mval_eqb (m_value x) (m_value y))) r end.
Definition extra_sizes (s : str) (ms : list mt) (filepart : mt) : list mt :=
  let screensize := rev (range s ms (m_start filepart) (m_end filepart) (has_name (lit "screen_size"))) in
  if (1 <? List.length screensize) && several_values screensize then tl screensize else [].
Definition OnlyOne (s : str) (markers ms : list mt) : list mt :=
  remove_all (flat_map (extra_sizes s ms) (named (lit "path") markers)) ms.

(** screen_size.py:136-164 [ResolveScreenSizeConflicts.when] *)
Definition season_or_episode (m : mt) : bool := smem (m_name m) [lit "season"; lit "episode"].
Definition good_before (m : mt) : bool := smem (m_name m) [lit "date"; lit "source"; lit "other"; lit "streaming_service"].
Definition size_conflicts (s : str) (ms : list mt) (filepart : mt) : list mt :=
  match first (range s ms (m_start filepart) (m_end filepart) (has_name (lit "screen_size"))) with
  | None => []
  | Some screensize =>
      if negb (m_truthy screensize) then []
      else
        match conflicting screensize ms season_or_episode with
        | [] => []
        | conflicts =>
            let profile :=
              match first (range s ms (m_end screensize) (m_end filepart) (has_name (lit "video_profile"))) with
              | Some p => m_truthy p && negb (text_between s ms (m_end screensize) (m_start p))
              | None => false
              end in
            let before :=
              match first (previous screensize ms good_before) with
              | Some p => m_truthy p && negb (text_between s ms (m_end p) (m_start screensize))
              | None => false
              end in
            (if profile then conflicts else []) ++ (if before then conflicts else [])
            ++ (if profile || before then [] else [screensize])
        end
  end.
Definition ResolveConflicts (s : str) (markers ms : list mt) : list mt :=
  remove_all (flat_map (size_conflicts s ms) (named (lit "path") markers)) ms.
