(** Model of the patterns of rules/properties/screen_size.py. The heights and the frame rates come from sets
    ([frozenset]), so the order of the alternatives is any order: the lists here are in any order. Simplification:
    the expressions of the configuration have no group of their own. *)
From Verif Require Import Py Text Regex Quantity Rebulk Patterns Keyword.
From Coq Require Import Arith.
Local Open Scope nat_scope.

(** reutils.py:10-35 [build_or_pattern]: the alternatives in order *)
Fixpoint or_kre (l : list kre) : kre := match l with [] => KEps | [k] => k | k :: r => KAlt k (or_kre r) end.
(** a word, ignoring case *)
Definition word_kre (t : string) : kre := text_kre true (lit t).
Definition times_kre : kre := KAlt (word_kre "x") (word_kre "*").
Definition group_kre (n : nat) (name : string) (k : kre) : kre := KGrp n (lit name) k.
Definition width_digits : kre := krange (KItem IDig) 3 1.
(** screen_size.py:43 [(?:(?P<width>\d{3,4})(?:x|T))?], T being a star *)
Definition width_kre : kre := KOpt (KSeq (group_kre 1 "width" width_digits) times_kre).
Definition height_kre (heights : list kre) : kre := group_kre 2 "height" (or_kre heights).
(** screen_size.py:44-45 *)
Definition rated_kre (heights rates : list kre) (scan : string) : kre :=
  KSeq width_kre (KSeq (height_kre heights) (KSeq (group_kre 3 "scan_type" (word_kre scan)) (KOpt (group_kre 4 "frame_rate" (or_kre rates))))).
(** screen_size.py:46 *)
Definition hd_kre (heights : list kre) : kre :=
  KSeq width_kre (KSeq (height_kre heights) (KSeq (KOpt (group_kre 3 "scan_type" (word_kre "p"))) (word_kre "hd"))).
(** screen_size.py:47 *)
Definition bare_kre (heights : list kre) : kre :=
  KSeq width_kre (KSeq (height_kre heights) (KSeq (KOpt (group_kre 3 "scan_type" (word_kre "p"))) (KOpt (word_kre "x")))).
(** screen_size.py:50 *)
Definition resolution_kre : kre :=
  KSeq (group_kre 1 "width" width_digits) (KSeq (KOpt (KItem ISep)) (KSeq times_kre (KSeq (KOpt (KItem ISep)) (group_kre 2 "height" width_digits)))).
(** screen_size.py:53 *)
Definition fps_kre (rates : list kre) : kre :=
  KSeq (group_kre 1 "frame_rate" (or_kre rates)) (KSeq (KOpt (KItem ISep)) (KAlt (word_kre "p") (word_kre "fps"))).
(** screen_size.py:36-37: the name, the validator; the groups are the children of the match *)
Definition plain_rx (name : string) (value : str -> mval) (k : kre) : rx :=
  mk_rx (kre_re k) (map (fun g => (fst g, match snd g with [] => lit name | n => n end)) (kre_groups k)) (lit name) [] false false false (fun _ => value) seps_surround always.
Definition size_rxs (interlaced progressive rates : list kre) : list rx :=
  map (plain_rx "screen_size" MvStr) [rated_kre interlaced rates "i"; rated_kre progressive rates "p"; hd_kre progressive; bare_kre progressive].
(** all the patterns, screen_size.py:44-54 *)
Definition screen_matches (interlaced progressive rates : list kre) (s : str) : res (list mt) :=
  fours <- string_matches s [lit "4k"] (lit "screen_size") (fun _ => MvStr (lit "2160p")) [] seps_surround;
  Ok (flat_map (fun p => rx_matches p s) (size_rxs interlaced progressive rates) ++ fours ++
      rx_matches (plain_rx "screen_size" MvStr resolution_kre) s ++
      rx_matches (plain_rx "frame_rate" (quantity_of_text FrameRate) (fps_kre rates)) s).
(** config/options.json:549-583 *)
Definition kres (l : list string) : list kre := flat_map (fun t => match kre_of (lit t) with Some k => [k] | None => [] end) l.
Definition default_rates : list kre :=
  kres ["23\.976"; "24(?:\.0{1,3})?"; "25(?:\.0{1,3})?"; "29\.970"; "30(?:\.0{1,3})?"; "48(?:\.0{1,3})?"; "50(?:\.0{1,3})?"; "60(?:\.0{1,3})?"; "120(?:\.0{1,3})?"]%string.
Definition default_interlaced : list kre := kres ["360"; "480"; "540"; "576"; "900"; "1080"]%string.
Definition default_progressive : list kre := kres ["360"; "480"; "540"; "576"; "900"; "1080"; "368"; "720"; "1440"; "2160"; "4320"]%string.
Example defaults_read : (List.length default_rates, List.length default_interlaced, List.length default_progressive) = (9, 6, 11).
Proof. vm_compute. reflexivity. Qed.
