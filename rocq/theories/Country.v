(** Model of guessit/rules/properties/country.py. The babelfish database is a parameter.
    Simplification: ASCII case mapping and whitespace. *)
From Verif Require Import Py Text Words.
From Coq Require Import Arith.

Section Country.
  (** babelfish: [COUNTRIES] (alpha2, name) and [Country.fromname], which gives an alpha2 code or raises CountryReverseError *)
  Context (countries : list (str * str)) (fromname : str -> option str).
  (** the entry of a code: [Country(code)] raises ValueError when there is none *)
  Definition country_name (alpha2 : str) : option str :=
    match find (fun e => str_eqb (fst e) alpha2) countries with Some e => Some (snd e) | None => None end.

  (** country.py:49-54 [guessit_exceptions]: the last synonym written wins *)
  Definition exceptions (synonyms : list (str * list str)) : list (str * str) :=
    flat_map (fun e => map (fun syn => (lower syn, fst e)) (snd e)) synonyms.
  Definition exception (synonyms : list (str * list str)) (name : str) : option str :=
    match find (fun e => str_eqb (fst e) name) (rev (exceptions synonyms)) with Some e => Some (snd e) | None => None end.
  (** country.py:67-86 [reverse]; [None] is CountryReverseError *)
  Definition reverse (synonyms : list (str * list str)) (name : str) : option str :=
    match exception synonyms (lower name) with
    | Some alpha2 => Some alpha2
    | None => match country_name (upper name) with
              | Some _ => Some (upper name)
              | None => fromname name
              end
    end.
  (** [Country.fromguessit]: [Country(reverse(name))]; [Ok None] is CountryReverseError *)
  Definition fromguessit (synonyms : list (str * list str)) (name : str) : res (option (str * str)) :=
    match reverse synonyms name with
    | None => Ok None
    | Some alpha2 => match country_name alpha2 with
                     | Some n => Ok (Some (alpha2, n))
                     | None => Err ValueError
                     end
    end.
  (** country.py:92-110 [CountryFinder.find]: spans and codes, in order. ValueError is not a babelfish error: it is not caught *)
  Definition find_word (synonyms : list (str * list str)) (allowed common : list str) (w : word) : res (list (nat * nat * str)) :=
    if smem (lower (w_value w)) common then Ok []
    else c <- fromguessit synonyms (w_value w);
         match c with
         | None => Ok []
         | Some (alpha2, name) =>
             let allowed := map lower allowed in
             if smem (lower name) allowed || smem (lower alpha2) allowed then Ok [(w_start w, w_end w, alpha2)] else Ok []
         end.
  Definition find_countries (synonyms : list (str * list str)) (allowed common : list str) (s : str) : res (list (nat * nat * str)) :=
    l <- mapM (find_word synonyms allowed common) (iter_words (lower (strip is_space s)));
    Ok (List.concat l).
End Country.
