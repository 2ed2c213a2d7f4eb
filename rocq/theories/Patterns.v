(** Model of the patterns the property builders give to rebulk: date.py, crc.py, size.py, screen_size.py, part of
    container.py, and the patterns of /repo/guessit/config/options.json for film, bonus, bit_rate and cd.
    rebulk/pattern.py is not in /repo and is transcribed here (see DESIGN.md). Simplifications: [\d] and
    [re.IGNORECASE] are ASCII; a group of these patterns is never empty. *)
From Verif Require Import Py Text Regex Numeral Date Quantity Rebulk Episodes.
From Coq Require Import Arith QArith.
Local Open Scope nat_scope.

(** ** a regular expression given to rebulk *)
Record rx := mk_rx {
  rx_re : re;
  rx_names : list (nat * str);       (** its groups, with the name of the child each gives *)
  rx_name : str;
  rx_tags : list str;
  rx_children : bool;                (** [children=True]: the groups are the matches *)
  rx_private_parent : bool;
  rx_validate_all : bool;
  rx_value : str -> str -> mval;     (** the formatter of a name, applied to the text *)
  rx_valid : str -> mt -> bool;      (** the validator of the whole match *)
  rx_child_valid : str -> mt -> bool (** the validator of a group *)
}.
(** the groups that took part in the match *)
Definition rx_kids (p : rx) (s : str) (c : caps) : list child :=
  flat_map (fun g => match group (fst g) c with
                     | Some (x, y) => [mk_c x y (snd g) (if rx_children p then rx_value p (snd g) (slice x y s) else MvStr (slice x y s))]
                     | None => []
                     end) (rx_names p).
Definition rx_parent (p : rx) (s : str) (a b : nat) (c : caps) : mt :=
  mk_mt a b (rx_name p) (if rx_children p then MvStr (slice a b s) else rx_value p (rx_name p) (slice a b s))
        (rx_tags p) (rx_children p) a b None (rx_kids p s c).
Definition rx_child (p : rx) (a b : nat) (k : child) : mt :=
  mk_mt (c_start k) (c_end k) (c_name k) (c_value k) (rx_tags p) false (c_start k) (c_end k)
        (Some (mk_p a b (rx_name p) (rx_tags p))) [].
(** what becomes of one match of the expression *)
Definition rx_one (p : rx) (s : str) (f : nat * nat * caps) : list mt :=
  let '(a, b, c) := f in
  let parent := rx_parent p s a b c in
  let children := map (rx_child p a b) (rx_kids p s c) in
  if (if negb (rx_children p) || rx_validate_all p then rx_valid p s parent else true)
     && (if rx_children p || rx_validate_all p then forallb (rx_child_valid p s) children else true)
  then (if negb (rx_children p) || rx_private_parent p then [parent] else []) ++ (if rx_children p then children else [])
  else [].
Definition rx_matches (p : rx) (s : str) : list mt := flat_map (rx_one p s) (finditer s (rx_re p)).

(** validators and formatters *)
Definition always (s : str) (m : mt) : bool := true.
(** rules/common/validators.py:11 *)
Definition seps_surround (s : str) (m : mt) : bool := chars_surround is_sep s m.
(** [formatter=int], on digits *)
Definition int_of_text (t : str) : mval := MvInt (dec t).
(** a test of the number a match stands for *)
Definition number_is (p : Z -> bool) (m : mt) : bool := match m_value m with MvInt z => p z | _ => false end.
(** [formatter=Size.fromstring] and the like; the texts of the patterns below are always understood *)
Definition quantity_of_text (k : kind) (t : str) : mval :=
  match fromstring k t with
  | Ok q => MvQuant (match q_magnitude q with MInt n => inject_Z (Z.of_N n) | MFloat x => Qred x end) (q_units q)
  | Err _ => MvStr t
  end.

(** pieces of expressions *)
Definition digit : re := RChr is_digit.
Definition digits1 : re := ratleast digit 1.
(** a character of the text, ignoring case *)
Definition one_of (l : str) : re := RChr (fun c => cmem (to_lower c) l).
(** rules/common/__init__.py:14 [dash]: the abbreviation [-] of the patterns, and [-?] *)
Definition dash : re := RChr (fun c => cmem c seps_no_fs).
Definition dash_opt : re := ropt dash 1.
Fixpoint rwords (l : list str) : re := match l with [] => REps | [w] => rlit w | w :: r => RAlt (rlit w) (rwords r) end.

(** ** rules/properties/date.py *)
(** date.py:29-34 [\d{4}] *)
Definition year_rx : rx :=
  mk_rx (rrep digit 4) [] (lit "year") [] false false false (fun _ => int_of_text)
        (fun s m => seps_surround s m && number_is valid_year m) always.
(** date.py:36-43 [(?:week)-?(\d{1,2})], [children=True]: the validator is that of the group *)
Definition week_rx (words : list str) : rx :=
  mk_rx (RSeq (rwords words) (RSeq dash_opt (RGrp 1 (rrange digit 1 2)))) [(1, lit "week")] (lit "week") [] true false false (fun _ => int_of_text)
        always (fun s m => seps_surround s m && number_is valid_week m).
(** ** rules/properties/crc.py *)
(** crc.py:26 [(?:[a-fA-F]|[0-9]){8}] *)
Definition hex (c : char) : bool := cmem (to_lower c) (lit "abcdef") || is_digit c.
Definition crc_rx : rx :=
  mk_rx (rrep (RChr hex) 8) [] (lit "crc32") [] false false false (fun _ => MvStr) seps_surround always.
(** ** rules/properties/size.py *)
(** size.py:26 [\d+-?[mgt]b] and [\d+\.\d+-?[mgt]b] *)
Definition dot : re := RChr (fun c => N.eqb c 46).
Definition size_rx (decimal : bool) : rx :=
  mk_rx (RSeq (if decimal then RSeq digits1 (RSeq dot digits1) else digits1) (RSeq dash_opt (RSeq (one_of (lit "mgt")) (one_of (lit "b")))))
        [] (lit "size") [lit "release-group-prefix"] false false false (fun _ => quantity_of_text Size) seps_surround always.
Definition size_matches (s : str) : list mt := rx_matches (size_rx false) s ++ rx_matches (size_rx true) s.
(** ** options.json, bit_rate: [\d+-?[kmg]b(ps|its?)] and [\d+\.\d+-?[kmg]b(ps|its?)]; rules/properties/bit_rate.py:25-30 *)
Definition bits : re := RGrp 1 (RAlt (rlit (lit "ps")) (RSeq (rlit (lit "it")) (ropt (one_of (lit "s")) 1))).
Definition bit_rate_rx (decimal : bool) : rx :=
  mk_rx (RSeq (if decimal then RSeq digits1 (RSeq dot digits1) else digits1) (RSeq dash_opt (RSeq (one_of (lit "kmg")) (RSeq (one_of (lit "b")) bits))))
        [(1, lit "audio_bit_rate")] (lit "audio_bit_rate") [lit "release-group-prefix"] false false false (fun _ => quantity_of_text BitRate) seps_surround always.
Definition bit_rate_matches (s : str) : list mt := rx_matches (bit_rate_rx false) s ++ rx_matches (bit_rate_rx true) s.
(** ** options.json, film: [f(\d{1,2})], the parent is validated *)
Definition film_rx : rx :=
  mk_rx (RSeq (one_of (lit "f")) (RGrp 1 (rrange digit 1 2))) [(1, lit "film")] (lit "film") [] true true true (fun _ => int_of_text) seps_surround always.
(** ** options.json, bonus: [x(\d+)], the parent is validated *)
Definition bonus_rx : rx :=
  mk_rx (RSeq (one_of (lit "x")) (RGrp 1 digits1)) [(1, lit "bonus")] (lit "bonus") [] true true true (fun _ => int_of_text) seps_surround always.
(** ** options.json, cd: [cd-?(?P<cd>\d+)(?:-?of-?(?P<cd_count>\d+))?] and [(?P<cd_count>\d+)-?cds?] *)
Definition hundred (s : str) (m : mt) : bool := number_is (fun z => (0 <? z)%Z && (z <? 100)%Z) m.
Definition cd_rx : rx :=
  mk_rx (RSeq (rlit (lit "cd")) (RSeq dash_opt (RSeq (RGrp 1 digits1) (ropt (RSeq dash_opt (RSeq (rlit (lit "of")) (RSeq dash_opt (RGrp 2 digits1)))) 1))))
        [(1, lit "cd"); (2, lit "cd_count")] [] [] true true false (fun _ => int_of_text) always hundred.
Definition cd_count_rx : rx :=
  mk_rx (RSeq (RGrp 1 digits1) (RSeq dash_opt (RSeq (rlit (lit "cd")) (ropt (one_of (lit "s")) 1))))
        [(1, lit "cd_count")] [] [] true true false (fun _ => int_of_text) always hundred.
(** ** rules/properties/screen_size.py:52 [(?P<width>\d{3,4})-?T-?(?P<height>\d{3,4})], T being an x or a star *)
Definition times : re := one_of (lit "x*").
Definition resolution_rx : rx :=
  mk_rx (RSeq (RGrp 1 (rrange digit 3 4)) (RSeq dash_opt (RSeq times (RSeq dash_opt (RGrp 2 (rrange digit 3 4))))))
        [(1, lit "width"); (2, lit "height")] (lit "screen_size") [] false false false (fun _ => MvStr) seps_surround always.
(** ** rules/properties/container.py:39-43 [\.(?:ext|...)$], with [formatter=lambda value: value.strip(seps)] *)
Definition extension_rx (exts : list str) (tag : str) : rx :=
  mk_rx (RSeq dot (RSeq (rwords exts) REol)) [] (lit "container") [lit "extension"; tag] false false false
        (fun _ t => MvStr (strip is_sep t)) always always.

(** ** a text given to rebulk (rebulk/pattern.py [StringPattern]), with [ignore_case] *)
Definition string_matches (s : str) (words : list str) (name : str) (value : str -> mval) (tags : list str) (valid : str -> mt -> bool) : res (list mt) :=
  l <- mapM (fun w => starts <- find_all true s w;
                      Ok (filter (valid s) (map (fun a => simple a (a + List.length w) name (value (slice a (a + List.length w) s)) tags) starts))) words;
  Ok (List.concat l).
