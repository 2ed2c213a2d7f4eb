(** Three expressions of config/options.json that repeat without a bound, and so are not among those that Keyword.v reads *)
From Verif Require Import Py Text Regex Episodes Rebulk Date Patterns.
From Coq Require Import Arith.
Local Open Scope nat_scope.

(** config/options.json:450 "_repack_with_count": "Repack" and "Rerip" followed by the group proper_count, any number of digits, value {"other": "Proper"};
    other.py:28-30: ignoring case, name [other], validator [seps_surround]. Simplification: ASCII digits. *)
Definition repack_rx (w : str) : rx :=
  mk_rx (RSeq (rlit w) (RGrp 1 (RStar digit))) [(1, lit "proper_count")] (lit "other") [lit "streaming_service.prefix"; lit "streaming_service.suffix"]
    false false false (fun n t => if str_eqb n (lit "other") then MvStr (lit "Proper") else MvStr t) seps_surround always.
Definition repack_matches (s : str) : list mt := rx_matches (repack_rx (lit "repack")) s ++ rx_matches (repack_rx (lit "rerip")) s.
(** config/options.json:56 [LAME(?:\d)+-?(?:\d)+], value "MP3"; audio_codec.py:28-52: ignoring case, name [audio_codec], no validator *)
Definition lame_rx : rx :=
  mk_rx (RSeq (rlit (lit "lame")) (RSeq digits1 (RSeq dash_opt digits1))) [] (lit "audio_codec") [] false false false (fun _ _ => MvStr (lit "MP3")) always always.
Example repack_ex : map (fun m => (m_start m, m_end m, map c_value (m_children m))) (repack_matches (lit "Show.REPACK2.x.Rerip.prepack.repackz rerip12")) =
  [(5, 12, [MvStr (lit "2")]); (15, 20, [MvStr []]); (37, 44, [MvStr (lit "12")])].
Proof. vm_compute. reflexivity. Qed.
Example lame_ex : map (fun m => (m_start m, m_end m)) (rx_matches lame_rx (lit "a.LAME3-90.flame398xLame3 lame3.a.lame12--3")) = [(2, 10); (12, 19); (34, 40)].
Proof. vm_compute. reflexivity. Qed.
