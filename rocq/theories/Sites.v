(** Model of the patterns of guessit/rules/properties/website.py, and of the reading of the list of top-level domains.
    rebulk/pattern.py is transcribed in Patterns.v. Simplification: [re.IGNORECASE] and [str.strip] are ASCII. *)
From Verif Require Import Py Text Regex Date Rebulk Episodes Patterns.
From Coq Require Import Arith.
Local Open Scope nat_scope.

(** website.py:35-39: [text.split('\n')], the lines without two hyphens, stripped, but the first *)
Fixpoint split_lines (cur : str) (s : str) : list str :=
  match s with
  | [] => [rev cur]
  | c :: r => if N.eqb c 10 then rev cur :: split_lines [] r else split_lines (c :: cur) r
  end.
Definition read_tlds (text : str) : list str :=
  skipn 1 (map (strip is_space) (filter (fun l => match find_sub (lit "--") l 0 with Some _ => false | None => true end) (split_lines [] text))).

(** website.py:46-59. [re.IGNORECASE]: the configured words are compared in lower case *)
Definition no_alnum (c : N) : bool := negb (is_alpha c || is_digit c).
Definition host_char (c : N) : bool := is_alpha c || is_digit c || N.eqb c 45.
Definition words_of (l : list str) : re := rwords (map lower l).
Definition then_dot (r : re) : re := RSeq r dot.
Definition label_re : re := ratleast (RChr host_char) 1.
(** [(?:[^a-z0-9]|^)(...)(?:[^a-z0-9]|$)] *)
Definition site_re (body : re) : re := RSeq (RAlt (RChr no_alnum) RBol) (RSeq (RGrp 1 body) (RAlt (RChr no_alnum) REol)).
(** website.py:46-49 [(?:sub\.)+(?:[a-z-0-9-]+\.)+(?:tld)] *)
Definition body1 (subs tlds : list str) : re :=
  RSeq (ratleast (then_dot (words_of subs)) 1) (RSeq (ratleast (then_dot label_re) 1) (words_of tlds)).
(** website.py:50-53 [(?:sub\.)*[a-z0-9-]+\.(?:safe tld)] *)
Definition body2 (subs safe_tlds : list str) : re :=
  RSeq (RStar (then_dot (words_of subs))) (RSeq (then_dot label_re) (words_of safe_tlds)).
(** website.py:54-59 [(?:sub\.)*[a-z0-9-]+\.(?:prefix\.)+(?:tld)] *)
Definition body3 (subs prefixes tlds : list str) : re :=
  RSeq (RStar (then_dot (words_of subs))) (RSeq (then_dot label_re) (RSeq (ratleast (then_dot (words_of prefixes)) 1) (words_of tlds))).
(** website.py:31-33, 49, 53, 59: [name="website"], [children=True] *)
Definition site_rx (body : re) : rx := mk_rx (site_re body) [(1, lit "website")] (lit "website") [] true false false (fun _ => MvStr) always always.
Definition site_matches (subs safe_tlds prefixes tlds : list str) (s : str) : list mt :=
  rx_matches (site_rx (body1 subs tlds)) s ++ rx_matches (site_rx (body2 subs safe_tlds)) s ++ rx_matches (site_rx (body3 subs prefixes tlds)) s.
