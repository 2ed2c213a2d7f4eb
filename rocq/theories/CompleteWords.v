(** Model of [complete_words] of guessit/rules/properties/other.py:42-68: [The Complete Series], [Season Complete].
    The expression is read by [kre_of] (Keyword.v). *)
From Verif Require Import Py Text Regex Common Rebulk Patterns PatternConf Keyword.
From Coq Require Import Arith.
Local Open Scope nat_scope.

(** other.py:62-64 *)
Definition complete_pattern (season_words article_words : list str) : str :=
  lit "(?P<completeArticle>" ++ build_or_pattern article_words None false ++ lit "-)?" ++
  lit "(?P<completeWordsBefore>" ++ build_or_pattern season_words None false ++ lit "-)?" ++
  lit "Complete" ++ lit "(?P<completeWordsAfter>-" ++ build_or_pattern season_words None false ++ lit ")?".
(** other.py:49-60 [validate_complete], on the groups of the match *)
Definition validate_complete (s : str) (m : mt) : bool :=
  existsb (fun k => str_eqb (c_name k) (lit "completeWordsBefore") || str_eqb (c_name k) (lit "completeWordsAfter")) (m_children m).
(** lines 62-68, with the defaults of line 32; the private names are those of the groups, which are not yielded *)
Definition complete_kw (season_words article_words : list str) : option kw :=
  option_map (fun k => mk_kw k None
    (mk_rx (kre_re k) (kre_groups k) (lit "other") [lit "release-group-prefix"] false false false (fun _ _ => MvStr (lit "Complete"))
           (fun s m => seps_surround s m && validate_complete s m) always))
    (kre_of (complete_pattern season_words article_words)).
Definition complete_matches (season_words article_words : list str) (s : str) : list mt :=
  match complete_kw season_words article_words with
  | Some K => match kw_matches K s with Ok ms => ms | Err _ => [] end
  | None => []
  end.
(** options.json:529 *)
Definition season_patterns : list str := map lit ["seasons?"; "series?"]%string.
Definition article_patterns : list str := [lit "The"].
Example complete_1 : map (fun m => (m_start m, m_end m, m_value m)) (complete_matches season_patterns article_patterns (lit "Show The.Complete.Series season complete; complete seasonal complete serie")) =
  [(5, 24, MvStr (lit "Complete")); (25, 40, MvStr (lit "Complete")); (60, 74, MvStr (lit "Complete"))].
Proof. vm_compute. reflexivity. Qed.
