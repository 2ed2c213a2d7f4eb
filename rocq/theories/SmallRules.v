(** Model of the rules of guessit/rules/properties/type.py, date.py and bit_rate.py. *)
From Verif Require Import Py Text Common Rebulk.
From Coq Require Import Arith.

Definition some_named (n : str) (ms : list mt) : bool := match named n ms with [] => false | _ => true end.

(** ** type.py *)
(** [context.get('type', None)]. Simplification: a text or nothing. *)
Definition type_option (context : dict) : str := match dget context (KS (lit "type")) with Some (VStr t) => t | _ => [] end.
(** type.py:48-80 *)
Definition decide_type (context : dict) (ms : list mt) : str :=
  match type_option context with
  | _ :: _ => type_option context
  | [] =>
      if some_named (lit "episode") ms || some_named (lit "season") ms || some_named (lit "episode_details") ms || some_named (lit "absolute_episode") ms
      then lit "episode"
      else if some_named (lit "film") ms then lit "movie"
      else if some_named (lit "date") ms && negb (some_named (lit "year") ms) then lit "episode"
      else if some_named (lit "bonus") ms && negb (some_named (lit "year") ms) then lit "episode"
      else if some_named (lit "crc32") ms && match filter (has_tag (lit "anime")) (named (lit "release_group") ms) with [] => false | _ => true end
      then lit "episode"
      else lit "movie"
  end.
(** type.py:13-20, 82-83 and 32: the rule is disabled with the property *)
Definition TypeProcessor (context : dict) (s : str) (ms : list mt) : res (list mt) :=
  d <- is_disabled context (lit "type");
  if (d : bool) then Ok ms
  else Ok (ms ++ [simple (List.length s) (List.length s) (lit "type") (MvStr (decide_type context ms)) []]).

(** ** date.py:69-103 [KeepMarkedYearInFilepart] *)
Definition in_group (markers : list mt) (y : mt) : bool :=
  match filter (has_name (lit "group")) (at_match y markers) with [] => false | _ => true end.
Definition year_removed (markers years : list mt) : list mt :=
  if 1 <? List.length years then
    let group_years := filter (in_group markers) years in
    let ungroup_years := filter (fun y => negb (in_group markers y)) years in
    match group_years, ungroup_years with
    | _ :: rest, _ :: _ => ungroup_years ++ rest
    | [], u :: r => u :: tl r
    | _, [] => []
    end
  else [].
Definition years_in (s : str) (ms : list mt) (k : mt) : list mt := range s ms (m_start k) (m_end k) (has_name (lit "year")).
Definition KeepMarkedYear (s : str) (markers ms : list mt) : list mt :=
  if 1 <? List.length (named (lit "year") ms)
  then remove_all (flat_map (fun k => year_removed markers (years_in s ms k)) (named (lit "path") markers)) ms
  else ms.

(** ** bit_rate.py:38-71 [BitRateTypeRule] *)
Definition before_bit_rate (m : mt) : bool := smem (m_name m) [lit "source"; lit "screen_size"; lit "video_codec"].
Definition small_rate (v : mval) : bool :=
  match v with
  | MvQuant q u => str_eqb u (lit "Kbps") || (str_eqb u (lit "Mbps") && negb (Qle_bool 10 q))
  | _ => false
  end.
(** lines 51-62: the match is a video bit rate *)
Definition is_video_rate (s : str) (ms : list mt) (m : mt) : bool :=
  match first (previous m ms before_bit_rate) with
  | None => false
  | Some p =>
      m_truthy p && negb (text_between s ms (m_end p) (m_start m)) &&
      negb (match first (next m ms (has_name (lit "audio_codec"))) with
            | None => false
            | Some a => m_truthy a && negb (text_between s ms (m_end m) (m_start a)) && small_rate (m_value m)
            end)
  end.
Definition bit_rate_split (context : dict) (s : str) (ms : list mt) : res (list mt * list mt) :=
  a <- is_disabled context (lit "audio_bit_rate");
  if (a : bool) then Ok ([], named (lit "audio_bit_rate") ms)
  else
    v <- is_disabled context (lit "video_bit_rate");
    let video := filter (is_video_rate s ms) (named (lit "audio_bit_rate") ms) in
    Ok (if (v : bool) then ([], video) else (video, [])).
Definition BitRateType (context : dict) (s : str) (ms : list mt) : res (list mt) :=
  x <- bit_rate_split context s ms;
  Ok (remove_all (snd x) (rename_all (lit "video_bit_rate") (fst x) ms)).
