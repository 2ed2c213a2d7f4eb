(** Model of guessit/rules/properties/language.py: LanguageFinder and the rules. The babelfish database is a parameter.
    Simplifications: ASCII case mapping; the sets of matches of [find] (whose iteration order depends on object
    identities) are lists in the order of the text. *)
From Verif Require Import Py Text Words Quantity Common Rebulk.
From Coq Require Import Arith.

(** a language: its identity (alpha3 code with country and script), and what [parse_language] reads *)
Record lang := mk_lang { l_id : str; l_name : option str; l_alpha2 : option str; l_alpha3 : str }.
(** language.py:140-153 [LanguageWord]; [next_word] is the first of [lw_rest]. The positions are those of the words *)
Record lword := mk_lw { lw_start : nat; lw_end : nat; lw_value : str; lw_rest : list word }.
Definition lword_of (w : word) (rest : list word) : lword := mk_lw (w_start w) (w_end w) (w_value w) rest.
Definition next_word (w : lword) : option lword :=
  match lw_rest w with [] => None | x :: r => Some (lword_of x r) end.
(** language.py:155-166 [extended_word] *)
Definition extended_word (s : str) (w : lword) : option lword :=
  match next_word w with
  | None => None
  | Some n =>
      let separator := slice (lw_end w) (lw_start n) s in
      let next_separator := slice (lw_end n) (lw_end n + 1) s in
      if (str_eqb separator (lit "-") && negb (str_eqb separator next_separator)) || smem separator [lit " "; lit "."]
      then Some (mk_lw (lw_start w) (lw_end n) (replace (lit ".") (lit " ") (slice (lw_start w) (lw_end n) s)) (lw_rest n))
      else None
  end.
(** a language match: span, property, language, and the text it comes from *)
Record lmatch := mk_lm { lm_start : nat; lm_end : nat; lm_name : str; lm_lang : lang; lm_word : str }.

Definition first_some {A B} (f : A -> option B) : list A -> option B :=
  fix go (l : list A) := match l with [] => None | x :: r => match f x with Some y => Some y | None => go r end end.
Definition opt_list {A} (o : option A) : list A := match o with Some x => [x] | None => [] end.

Section Language.
  (** [babelfish.Language.fromguessit]; [None] is a babelfish error *)
  Context (fromguessit : str -> option lang).
  (** the configured affixes, and [allowed_languages] *)
  Context (allowed : list str) (weak_affixes : list str).

  (** language.py:347-361 [parse_language] *)
  Definition allowed_text (t : option str) : bool := match t with Some x => smem (lower x) (map lower allowed) | None => false end.
  Definition parse_language (t : str) : option lang :=
    match fromguessit t with
    | Some l => if allowed_text (l_name l) || allowed_text (l_alpha2 l) || allowed_text (Some (l_alpha3 l)) then Some l else None
    | None => None
    end.
  (** language.py:338-345 [create_language_match] *)
  Definition create (key : str) (w : lword) : option lmatch :=
    match parse_language (lower (lw_value w)) with
    | Some l => Some (mk_lm (lw_start w) (lw_end w) key l (lw_value w))
    | None => None
    end.
  (** language.py:328-336 [find_language_match_for_word] *)
  Definition both_words (s : str) (w : lword) : list lword := opt_list (extended_word s w) ++ [w].
  Definition find_language (s : str) (key : str) (w : lword) : option lmatch := first_some (create key) (both_words s w).
  (** language.py:295-326 [find_match_for_word]; [suffix] tells which of the two tuples of 272-281 is used *)
  Definition is_affix (suffix : bool) (t part : str) : bool := if suffix then endswith part t else startswith part t.
  Definition strip_affix (suffix : bool) (t part : str) : str :=
    if suffix then firstn (List.length t - List.length part) t else skipn (List.length part) t.
  Definition close (a b : lword) : bool :=
    (Z.abs (Z.of_nat (lw_start b) - Z.of_nat (lw_end a)) <=? 1)%Z || (Z.abs (Z.of_nat (lw_start a) - Z.of_nat (lw_end b)) <=? 1)%Z.
  Definition affix_match (s : str) (suffix : bool) (word : lword) (fallback : option lword) (current : lword) (key part : str) : option lmatch :=
    let t := lower (lw_value current) in
    if negb (is_affix suffix t part) then None
    else match strip_affix suffix t part with
         | [] =>
             let m := match fallback with
                      | Some f => if close word f then find_language s key f else None
                      | None => None
                      end in
             match m with
             | Some x => Some x
             | None => if negb (smem part weak_affixes) then create key (mk_lw (lw_start current) (lw_end current) (lit "und") []) else None
             end
         | v => create key (mk_lw (lw_start current) (lw_end current) v [])
         end.
  Definition find_match (s : str) (suffix : bool) (affixes : list (str * list str)) (word : lword) (fallback : option lword) : option lmatch :=
    first_some (fun current =>
      first_some (fun kp => first_some (affix_match s suffix word fallback current (fst kp)) (snd kp)) affixes) (both_words s word).
  (** language.py:268-293 [iter_matches_for_candidate] *)
  Definition candidate_matches (s : str) (prefixes suffixes : list (str * list str)) (w : lword) : list lmatch :=
    opt_list (find_match s false prefixes w (next_word w)) ++
    match next_word w with Some n => opt_list (find_match s true suffixes n (Some w)) | None => [] end ++
    opt_list (find_language s (lit "language") w).
  (** language.py:249-266 [iter_language_matches] *)
  Fixpoint lwords (l : list word) : list lword := match l with [] => [] | w :: r => lword_of w r :: lwords r end.
  Definition iter_language_matches (s : str) (prefixes suffixes : list (str * list str)) : list lmatch :=
    flat_map (candidate_matches s prefixes suffixes) (lwords (iter_words s)).
  (** language.py:199-213: the affixes of each property *)
  Definition affix_map (subtitle_off : bool) (subtitle language : list str) : list (str * list str) :=
    (if subtitle_off then [] else [(lit "subtitle_language", subtitle)]) ++ [(lit "language", language)].
  (** language.py:215-247 [find]: the three maps, and which of their matches are given *)
  Definition und (m : lmatch) : bool := str_eqb (l_id (lm_lang m)) (lit "und").
  Definition mul (m : lmatch) : bool := str_eqb (l_id (lm_lang m)) (lit "mul").
  Definition regular (m : lmatch) : bool := negb (und m) && negb (mul m).
  Definition has_key (p : lmatch -> bool) (k : str) (l : list lmatch) : bool := existsb (fun m => p m && str_eqb (lm_name m) k) l.
  Definition report (l : list lmatch) : list lmatch :=
    filter (fun m => mul m && (has_key regular (lm_name m) l || negb (has_key und (lm_name m) l))) l ++
    filter (fun m => und m && negb (has_key regular (lm_name m) l)) l ++
    filter regular l.
  Definition find_languages (s : str) (subtitle_off : bool) (sub_prefixes sub_suffixes lang_prefixes lang_suffixes : list str) : list lmatch :=
    report (iter_language_matches s (affix_map subtitle_off sub_prefixes lang_prefixes) (affix_map subtitle_off sub_suffixes lang_suffixes)).
End Language.

(** language.py:364-397 [SubtitlePrefixLanguageRule.when]: the prefix of a language. Simplification: a prefix has a length, as
    its pattern is not empty, so that it is not false *)
Definition is_prefix (m : mt) : bool := has_name (lit "subtitle_language.prefix") m.
Definition prefix_of (s : str) (markers ms : list mt) (l : mt) : option mt :=
  match first (previous l ms is_prefix) with
  | Some p => Some p
  | None => match first (filter (has_name (lit "group")) (at_match l markers)) with
            | Some g => if m_truthy g then
                          match first (previous g ms is_prefix) with
                          | Some p => Some p
                          | None => first (range s ms (m_start g) (m_start l) is_prefix)
                          end
                        else None
            | None => None
            end
  end.
(** language.py:375-397 [when]: what to rename and what to remove *)
Definition prefix_step (s : str) (markers ms : list mt) (st : list (mt * mt) * list mt) (l : mt) : list (mt * mt) * list mt :=
  match prefix_of s markers ms l with
  | Some p => (fst st ++ [(p, l)], remove1 p (snd st ++ conflicting l ms (fun _ => true)))
  | None => st
  end.
Definition prefix_when (s : str) (markers ms : list mt) : list (mt * mt) * list mt :=
  fold_left (prefix_step s markers ms) (named (lit "language") ms) ([], named (lit "subtitle_language.prefix") ms).
(** language.py:399-410 [then] *)
Definition to_subtitle (ms : list mt) (l : mt) : res (list mt) :=
  if mmem l ms then Ok (remove1 l ms ++ [set_name l (lit "subtitle_language")]) else Err ValueError.
Definition SubtitlePrefix (s : str) (markers ms : list mt) : res (list mt) :=
  let w := prefix_when s markers ms in
  foldM (fun ms pl => to_subtitle (remove1 (set_name (fst pl) (lit "subtitle_language.suffix")) ms) (snd pl)) (fst w) (remove_all (snd w) ms).

(** language.py:413-444 [SubtitleSuffixLanguageRule] *)
Definition suffix_of (ms : list mt) (l : mt) : option mt := first (next l ms (has_name (lit "subtitle_language.suffix"))).
Definition suffix_step (ms : list mt) (st : list mt * list mt) (l : mt) : list mt * list mt :=
  match suffix_of ms l with
  | Some p => (fst st ++ [l], remove1 p (snd st))
  | None => st
  end.
Definition SubtitleSuffix (ms : list mt) : res (list mt) :=
  let w := fold_left (suffix_step ms) (named (lit "language") ms) ([], named (lit "subtitle_language.suffix") ms) in
  foldM to_subtitle (fst w) (remove_all (snd w) ms).

(** language.py:473-482 [RemoveLanguage] *)
Definition RemoveLanguage (language_off : bool) (ms : list mt) : list mt :=
  if language_off then remove_all (named (lit "language") ms) ms else ms.
(** language.py:485-512 [RemoveInvalidLanguages] *)
Definition is_language (m : mt) : bool := smem (m_name m) [lit "language"; lit "subtitle_language"].
Definition only_languages (s : str) (ms : list mt) (g : mt) : bool :=
  match range s ms (m_start g) (m_end g) (fun m => negb (is_language m)) with [] => true | _ => false end &&
  negb (text_between s ms (m_start g) (m_end g)).
Definition RemoveInvalid (common : list str) (s : str) (markers ms : list mt) : list mt :=
  remove_all (filter (fun m => smem (lower (slice (m_raw_start m) (m_raw_end m) s)) common &&
    negb (match first (filter (has_name (lit "group")) (at_match m markers)) with
          | Some g => m_truthy g && only_languages s ms g
          | None => false
          end)) (range s ms 0 (List.length s) is_language)) ms.
(** language.py:515-531 [RemoveUndeterminedLanguages] *)
Definition RemoveUndetermined (s : str) (ms : list mt) : list mt :=
  let is_lang o := match o with Some x => m_truthy x && has_name (lit "language") x | None => false end in
  remove_all (filter (fun m => mval_eqb (m_value m) (MvObj (lit "und")) &&
    (is_lang (first (previous m ms (fun _ => true))) || is_lang (first (next m ms (fun _ => true)))))
    (range s ms 0 (List.length s) is_language)) ms.
(** language.py:447-470 [SubtitleExtensionRule], when subtitle_language is not disabled; the change of privacy of weak languages
    concerns the matches named subtitle_language *)
Definition set_private (m : mt) : mt :=
  mk_mt (m_start m) (m_end m) (m_name m) (m_value m) (m_tags m) true (m_raw_start m) (m_raw_end m) (m_parent m) (m_children m).
Definition SubtitleExtension (ms : list mt) : list mt :=
  match first (filter (fun m => has_tag (lit "extension") m && has_tag (lit "subtitle") m) (named (lit "container") ms)) with
  | Some e =>
      if negb (m_truthy e) then ms
      else match first (previous e ms (has_name (lit "language"))) with
           | Some l =>
               if negb (m_truthy l) then ms
               else
                 let ms' := map (fun m => if has_name (lit "subtitle_language") m && has_tag (lit "weak-language") m then set_private m else m) ms in
                 rename_all (lit "subtitle_language") [l] (remove_all (conflicting l ms' (has_name (lit "source"))) ms')
           | None => ms
           end
  | None => ms
  end.
