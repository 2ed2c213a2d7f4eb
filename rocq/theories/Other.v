(** Model of the rules of guessit/rules/properties/other.py. The match value 'Proper' is a text. *)
From Verif Require Import Py Text Numeral Formatters Common Rebulk.
From Coq Require Import Arith.

(** [matches.input_string[a:b].strip(seps)] is empty *)
Definition only_seps (s : str) (a b : nat) : bool := forallb is_sep (slice a b s).
(** [match.initiator.name] *)
Definition initiator_name (m : mt) : str := match m_parent m with Some p => p_name p | None => m_name m end.

(** other.py:81-110 [ProperCountRule]; [raws] is a dict: a repeated key keeps its position and takes the last value *)
Definition raw_of (s : str) (m : mt) : str := slice (m_raw_start m) (m_raw_end m) s.
Fixpoint raw_put (k : str) (m : mt) (d : list (str * mt)) : list (str * mt) :=
  match d with
  | [] => [(k, m)]
  | (k', m') :: r => if str_eqb k k' then (k', m) :: r else (k', m') :: raw_put k m r
  end.
Definition raws (s : str) (propers : list mt) : res (list (str * mt)) :=
  foldM (fun d m => k <- raw_cleanup (raw_of s m); Ok (raw_put k m d)) propers [].
Definition proper_weight (s : str) (m : mt) : Z :=
  match child_text s m (lit "proper_count") with
  | Some (c :: r) => dec (c :: r)
  | _ => if has_tag (lit "real") m then 2%Z else 1%Z
  end.
(** other.py:94-97; [not start] also holds for 0 *)
Definition proper_start (l : list mt) : nat :=
  fold_left (fun start m => if (start =? 0) || (m_start m <? start) then m_start m else start) l 0.
Definition proper_end (l : list mt) : nat :=
  fold_left (fun e m => if (e =? 0) || (e <? m_end m) then m_end m else e) l 0.
Definition is_proper (m : mt) : bool := has_name (lit "other") m && mval_eqb (m_value m) (MvStr (lit "Proper")).
Definition ProperCount (s : str) (ms : list mt) : res (list mt) :=
  match filter is_proper ms with
  | [] => Ok ms
  | propers =>
      d <- raws s propers;
      let l := map snd d in
      Ok (append_all [simple (proper_start l) (proper_end l) (lit "proper_count")
                             (MvInt (fold_left (fun n m => (n + proper_weight s m)%Z) l 0%Z)) []] ms)
  end.

(** other.py:112-121 [RenameAnotherToOther] *)
Definition RenameAnother (ms : list mt) : list mt := rename_all (lit "other") (named (lit "another") ms) ms.

(** other.py:134-139, 180-185 the closest of the match and of the bracket group before *)
Definition before_match (markers ms : list mt) (m : mt) : option mt :=
  let previous_match := first (previous m ms (fun _ => true)) in
  let previous_group := first (previous m markers (has_name (lit "group"))) in
  match previous_group with
  | Some g => if m_truthy g then
                match previous_match with
                | Some p => if negb (m_truthy p) || (m_end p <? m_end g) then Some g else Some p
                | None => Some g
                end
              else previous_match
  | None => previous_match
  end.
(** other.py:140-145, 160-165 the same after *)
Definition after_match (markers ms : list mt) (m : mt) : option mt :=
  let next_match := first (next m ms (fun _ => true)) in
  let next_group := first (next m markers (has_name (lit "group"))) in
  match next_group with
  | Some g => if m_truthy g then
                match next_match with
                | Some p => if negb (m_truthy p) || (m_start g <? m_start p) then Some g else Some p
                | None => Some g
                end
              else next_match
  | None => next_match
  end.
Definition neighbour_before (s : str) (markers ms : list mt) (m : mt) : bool :=
  match before_match markers ms m with Some p => m_truthy p && only_seps s (m_end p) (m_start m) | None => false end.
Definition neighbour_after (s : str) (markers ms : list mt) (m : mt) : bool :=
  match after_match markers ms m with Some p => m_truthy p && only_seps s (m_end m) (m_start p) | None => false end.
(** the loop is left by [break] at the first valid match *)
Fixpoint until (valid : mt -> bool) (l : list mt) : list mt :=
  match l with
  | [] => []
  | m :: r => if valid m then [] else m :: until valid r
  end.
(** other.py:131-147 [ValidateHasNeighbor] *)
Definition HasNeighbor (s : str) (markers ms : list mt) : list mt :=
  remove_all (until (fun m => neighbour_before s markers ms m || neighbour_after s markers ms m)
                    (range_all s ms (has_tag (lit "has-neighbor")))) ms.
(** other.py:157-167 [ValidateHasNeighborBefore]: looks at what comes next *)
Definition HasNeighborBefore (s : str) (markers ms : list mt) : list mt :=
  remove_all (until (neighbour_after s markers ms) (range_all s ms (has_tag (lit "has-neighbor-before")))) ms.
(** other.py:177-187 [ValidateHasNeighborAfter]: looks at what comes before *)
Definition HasNeighborAfter (s : str) (markers ms : list mt) : list mt :=
  remove_all (until (neighbour_before s markers ms) (range_all s ms (has_tag (lit "has-neighbor-after")))) ms.

(** other.py:197-203 [ValidateScreenerRule] *)
Definition from_source (m : mt) : bool := str_eqb (initiator_name m) (lit "source").
Definition other_tagged (t : string) (m : mt) : bool := has_name (lit "other") m && has_tag (lit t) m.
Definition Screener (s : str) (ms : list mt) : list mt :=
  remove_all (filter (fun m => other_tagged "other.validate.screener" m &&
                match first (previous m ms from_source) with
                | Some p => negb (m_truthy p) || negb (only_seps s (m_end p) (m_start m))
                | None => true
                end) ms) ms.
(** other.py:213-219 [ValidateMuxRule] *)
Definition Mux (ms : list mt) : list mt :=
  remove_all (filter (fun m => other_tagged "other.validate.mux" m && negb (o_truthy (first (previous m ms from_source)))) ms) ms.

(** other.py:228-244 [ValidateHardcodedSubs] *)
Definition is_hc (m : mt) : bool := has_name (lit "other") m && mval_eqb (m_value m) (MvStr (lit "Hardcoded Subtitles")).
Definition hc_valid (s : str) (ms : list mt) (m : mt) : bool :=
  match first (next m ms (has_name (lit "subtitle_language"))) with
  | Some p => m_truthy p && negb (text_between s ms (m_end m) (m_start p))
  | None => false
  end ||
  match first (previous m ms (has_name (lit "subtitle_language"))) with
  | Some p => m_truthy p && negb (text_between s ms (m_end p) (m_start m))
  | None => false
  end.
Definition HardcodedSubs (s : str) (ms : list mt) : list mt :=
  remove_all (filter (fun m => is_hc m && negb (hc_valid s ms m)) ms) ms.

(** other.py:290-300 [ValidateAtEnd] *)
Definition not_at_end (s : str) (ms : list mt) (filepart m : mt) : bool :=
  text_between s ms (m_end m) (m_end filepart) ||
  match range s ms (m_end m) (m_end filepart) (fun x => negb (smem (m_name x) [lit "other"; lit "container"])) with [] => false | _ => true end.
Definition AtEnd (s : str) (markers ms : list mt) : list mt :=
  remove_all (flat_map (fun k => filter (not_at_end s ms k) (range s ms (m_start k) (m_end k) (other_tagged "at-end"))) (named (lit "path") markers)) ms.
(** other.py:310-317 [ValidateReal] *)
Definition Real (s : str) (markers ms : list mt) : list mt :=
  remove_all (flat_map (fun k => filter (fun m => match range s ms (m_start k) (m_start m) (fun _ => true) with [] => true | _ => false end)
                                        (range s ms (m_start k) (m_end k) (other_tagged "real"))) (named (lit "path") markers)) ms.
