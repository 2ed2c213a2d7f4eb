(** Model of the language converter of guessit/rules/properties/language.py:80-129 and of the country converter's [convert]
    (country.py:62-65). The babelfish constructors are parameters. Simplification: ASCII case mapping. *)
From Verif Require Import Py Text Words Country Language.
From Coq Require Import Arith.

(** [str.split(c)] *)
Fixpoint split_char (c : char) (s : str) : list str :=
  match s with
  | [] => [[]]
  | x :: r => if (x =? c)%N then [] :: split_char c r
              else match split_char c r with [] => [[x]] | p :: ps => (x :: p) :: ps end
  end.
(** alpha3, country, script *)
Definition triple : Type := str * option str * option str.
(** language.py:87-90: [(alpha3, country) = code.split('_')] *)
Definition split_code (code : str) : res (str * option str) :=
  if cmem 95%N code then
    match split_char 95%N code with
    | [a; b] => Ok (a, Some b)
    | _ => Err ValueError
    end
  else Ok (code, None).
(** language.py:84-92 [GuessitConverter.__init__]: [guessit_exceptions], in the order of writing *)
Definition lang_converter (synonyms : list (str * list str)) : res (list (str * triple)) :=
  l <- mapM (fun e => c <- split_code (fst e); Ok (map (fun syn => (lower syn, (fst c, snd c, None) : triple)) (snd e))) synonyms;
  Ok (List.concat l).
(** a dict keeps the last value written for a key *)
Definition lookup_last {A} (d : list (str * A)) (k : str) : option A :=
  match find (fun e => str_eqb (fst e) k) (rev d) with Some e => Some (snd e) | None => None end.
Section Babelfish.
  (** [Language], [fromalpha3b], [fromalpha2], [fromname], [fromopensubtitles], [fromietf]: [None] is ValueError or LanguageReverseError *)
  Context (constructors : list (str -> option triple)).
  (** language.py:106-129 [reverse]; [None] is LanguageReverseError *)
  Definition lang_reverse (d : list (str * triple)) (name : str) : option triple :=
    let name := lower name in
    match lookup_last d name with
    | Some t => Some t
    | None => first_some (fun conv => conv name) constructors
    end.
  (** [babelfish.Language(alpha3, country, script)]: [None] is ValueError *)
  Context (language : triple -> option lang).
  (** [Language.fromguessit]; [Ok None] is LanguageReverseError, [Err] is the ValueError that [parse_language] (language.py:353-361) lets through *)
  Definition lang_fromguessit (d : list (str * triple)) (name : str) : res (option lang) :=
    match lang_reverse d name with
    | None => Ok None
    | Some t => match language t with Some l => Ok (Some l) | None => Err ValueError end
    end.
End Babelfish.
(** country.py:62-65 [convert]; [str(babelfish.Country(alpha2))] is the code itself *)
Definition country_convert (countries : list (str * str)) (alpha2 : str) : res str :=
  if str_eqb alpha2 (lit "GB") then Ok (lit "UK")
  else match country_name countries alpha2 with Some _ => Ok alpha2 | None => Err ValueError end.
