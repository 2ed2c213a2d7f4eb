(** Keywords: the regular expressions and the texts that the configuration (/repo/guessit/config/options.json) and
    the builders of /repo/guessit/rules/properties give to rebulk for fixed words. The texts of the expressions are
    read here, and become the [rx] of Patterns.v. Simplifications: ASCII for [\d], [\W] and [re.IGNORECASE] (a
    character above 127 is a word character); what the syntax below does not cover (repetitions without a bound) is
    not read. *)
From Verif Require Import Py Text Regex Episodes Rebulk Patterns PatternConf.
From Coq Require Import Arith.
Local Open Scope nat_scope.

(** ** one character of a keyword *)
Inductive item :=
| IChr (c : char)        (** that character, ignoring case *)
| IExact (c : char)      (** that character *)
| ISep                   (** [-], the abbreviation of rules/common/__init__.py:14 *)
| IDig                   (** [\d] *)
| INotDig                (** [[^\d]] *)
| INotWord               (** [[\W_]] *)
| IAny                   (** [.] *)
| IOf (l : str).         (** [[hx]], ignoring case *)
Definition accepts (i : item) (c : char) : bool :=
  match i with
  | IChr d => N.eqb (to_lower c) (to_lower d)
  | IExact d => N.eqb c d
  | ISep => cmem c seps_no_fs
  | IDig => is_digit c
  | INotDig => negb (is_digit c)
  | INotWord => negb (is_alpha c || is_digit c) && (c <? 128)%N
  | IAny => negb (N.eqb c 10)
  | IOf l => cmem (to_lower c) (lower l)
  end.

(** ** expressions without unbounded repetition *)
Inductive kre :=
| KEps
| KItem (i : item)
| KSeq (a b : kre)
| KAlt (a b : kre)
| KOpt (a : kre)
| KGrp (n : nat) (name : str) (a : kre)   (** [(...)] has no name: that of the pattern *)
| KEol
| KNot (i : item)                         (** [(?!x)] *)
| KLook (a : kre).                        (** [(?=...)] *)
Fixpoint kre_re (k : kre) : re :=
  match k with
  | KEps => REps
  | KItem i => RChr (accepts i)
  | KSeq a b => RSeq (kre_re a) (kre_re b)
  | KAlt a b => RAlt (kre_re a) (kre_re b)
  | KOpt a => RAlt (kre_re a) REps
  | KGrp n _ a => RGrp n (kre_re a)
  | KEol => REol
  | KNot i => RNext (fun o => match o with Some c => negb (accepts i c) | None => true end)
  | KLook a => RLook (kre_re a)
  end.
(** its groups, in order *)
Fixpoint kre_groups (k : kre) : list (nat * str) :=
  match k with
  | KSeq a b | KAlt a b => kre_groups a ++ kre_groups b
  | KOpt a => kre_groups a
  | KGrp n name a => (n, name) :: kre_groups a
  | _ => []
  end.

(** ** reading an expression *)
Fixpoint upto (stop : char) (s : str) : option (str * str) :=
  match s with
  | [] => None
  | c :: r => if N.eqb c stop then Some ([], r) else option_map (fun x => (c :: fst x, snd x)) (upto stop r)
  end.
Fixpoint krep (k : kre) (n : nat) : kre := match n with O => KEps | S m => KSeq k (krep k m) end.
(** at least [n], at most [m] more *)
Fixpoint kopts (k : kre) (m : nat) : kre := match m with O => KEps | S m => KOpt (KSeq k (kopts k m)) end.
Fixpoint krange (k : kre) (n m : nat) : kre := match n with O => kopts k m | S n => KSeq k (krange k n m) end.
(** after an atom: [?], [{n}], [{n,m}], or nothing; [*] and [+] are not read *)
Definition postfix (k : kre) (s : str) : option (kre * str) :=
  match s with
  | 63%N :: r => Some (KOpt k, r)
  | 123%N :: c :: 125%N :: r => if is_digit c then Some (krep k (N.to_nat (c - 48)), r) else None
  | 123%N :: c :: 44%N :: d :: 125%N :: r =>
      if is_digit c && is_digit d && (c <=? d)%N then Some (krange k (N.to_nat (c - 48)) (N.to_nat (d - c)), r) else None
  | 42%N :: _ | 43%N :: _ | 123%N :: _ => None
  | _ => Some (k, s)
  end.
(** a character class *)
Definition class (l : str) : option item :=
  if str_eqb l (lit "^\d") then Some INotDig
  else if str_eqb l (lit "\W_") then Some INotWord
  else if existsb (fun c => cmem c (lit "^\-")) l then None else Some (IOf l).
(** an expression up to a [)] or the end; [n] is the number of the next group *)
Fixpoint parse (fuel : nat) (s : str) (n : nat) : option (kre * str * nat) :=
  match fuel with
  | O => None
  | S f =>
      let continue (k : kre) (r : str) (n : nat) : option (kre * str * nat) :=
        match postfix k r with
        | Some (k, r) =>
            match parse f r n with
            | Some (KAlt a b, r', n') => Some (KAlt (KSeq k a) b, r', n')
            | Some (k', r', n') => Some (KSeq k k', r', n')
            | None => None
            end
        | None => None
        end in
      let inside (r : str) (n : nat) (wrap : kre -> kre) : option (kre * str * nat) :=
        match parse f r n with
        | Some (k, 41%N :: r', n') => continue (wrap k) r' n'
        | _ => None
        end in
      match s with
      | [] => Some (KEps, [], n)
      | 41%N :: _ => Some (KEps, s, n)
      | 124%N :: r => match parse f r n with Some (k, r', n') => Some (KAlt KEps k, r', n') | None => None end
      | 40%N :: 63%N :: 58%N :: r => inside r n (fun k => KSeq k KEps)
      | 40%N :: 63%N :: 61%N :: r => inside r n KLook
      | 40%N :: 63%N :: 33%N :: c :: 41%N :: r => continue (KNot (IChr c)) r n
      | 40%N :: 63%N :: 80%N :: 60%N :: r =>
          match upto 62 r with Some (name, r') => inside r' (S n) (KGrp n name) | None => None end
      | 40%N :: 63%N :: _ => None
      | 40%N :: r => inside r (S n) (KGrp n [])
      | 91%N :: r =>
          match upto 93 r with
          | Some (l, r') => match class l with Some i => continue (KItem i) r' n | None => None end
          | None => None
          end
      | 92%N :: 100%N :: r => continue (KItem IDig) r n
      | 92%N :: c :: r => if is_alpha c || is_digit c then None else continue (KItem (IChr c)) r n
      | 92%N :: [] => None
      | 46%N :: r => continue (KItem IAny) r n
      | 45%N :: r => continue (KItem ISep) r n
      | 36%N :: r => continue KEol r n
      | 63%N :: _ | 42%N :: _ | 43%N :: _ => None
      | c :: r => continue (KItem (IChr c)) r n
      end
  end.
(** the expression written [s], with [abbreviations=[dash]] and [re.IGNORECASE] *)
Definition kre_of (s : str) : option kre :=
  match parse (S (S (List.length s))) s 1 with Some (k, [], _) => Some k | _ => None end.
(** a plain text ([rebulk.string]), with or without [ignore_case] *)
Fixpoint text_kre (ignore_case : bool) (s : str) : kre :=
  match s with [] => KEps | c :: r => KSeq (KItem (if ignore_case then IChr c else IExact c)) (text_kre ignore_case r) end.

(** ** what the options of a pattern mean *)
(** a validator: for what the pattern yields, or for the whole match only ([{'__parent__': ...}]) *)
Inductive validator :=
| NoValidator
| Plain (f : str -> mt -> bool)
| ForParent (f : str -> mt -> bool).
(** rules/common/validators.py:11-13 *)
Definition seps_before (s : str) (m : mt) : bool := chars_before is_sep s m.
Definition seps_after (s : str) (m : mt) : bool := chars_after is_sep s m.
(** the names options.json gives, found in rules/common/validators.py *)
Definition named_validator (t : str) : option (str -> mt -> bool) :=
  if str_eqb t (lit "import:seps_surround") then Some seps_surround
  else if str_eqb t (lit "import:seps_after") then Some seps_after
  else if str_eqb t (lit "import:seps_before") then Some seps_before
  else None.
(** the defaults of a builder: [rebulk.defaults(...)] and [rebulk.regex_defaults(...)] *)
Record builder := mk_builder {
  b_name : str;
  b_tags : list str;
  b_validator : validator;
  b_children : bool;
  b_private_parent : bool;
  b_validate_all : bool
}.
(** the option [validator]; a dict given for a plain default replaces it *)
Definition validator_of (B : builder) (opts : dict) : option validator :=
  match dget opts (KS (lit "validator")) with
  | None => Some (b_validator B)
  | Some VNone => Some NoValidator
  | Some (VStr t) => option_map Plain (named_validator t)
  | Some (VDict [(KS p, VStr t)]) => if str_eqb p (lit "__parent__") then option_map ForParent (named_validator t) else None
  | Some _ => None
  end.
Definition flag_of (b : bool) (o : option val) : option bool := match o with None => Some b | Some (VBool x) => Some x | Some _ => None end.
Definition strs_of (l : list val) : option (list str) :=
  fold_right (fun v acc => match v, acc with VStr s, Some r => Some (s :: r) | _, _ => None end) (Some []) l.
(** the option [tags]: a list is added to that of the builder, a text replaces it *)
Definition tags_of (B : builder) (opts : dict) : option (list str) :=
  match dget opts (KS (lit "tags")) with
  | None => Some (b_tags B)
  | Some (VStr t) => Some [t]
  | Some (VList l) => option_map (fun l => b_tags B ++ l) (strs_of l)
  | Some _ => None
  end.
(** the option [value]: a text for all, or a text by name; the text of the match otherwise *)
Definition value_of_opt (opts : dict) : option (str -> str -> mval) :=
  match dget opts (KS (lit "value")) with
  | None => Some (fun _ t => MvStr t)
  | Some (VStr v) => Some (fun _ _ => MvStr v)
  | Some (VDict d) =>
      if forallb (fun kv => match snd kv with VStr _ => true | _ => false end) d
      then Some (fun n t => match dget d (KS n) with Some (VStr v) => MvStr v | _ => MvStr t end) else None
  | Some _ => None
  end.

(** a keyword: a regular expression, or a text for [str.find] *)
Record kw := mk_kw { kw_kre : kre; kw_text : option (bool * str); kw_rx : rx }.
(** the options that are understood; rebulk ignores [pattern] and gives [conflict_solver] to the matches *)
Definition known_options : list str :=
  map lit ["value"; "tags"; "validator"; "children"; "private_parent"; "validate_all"; "ignore_case"; "conflict_solver"; "name"; "pattern"]%string.
Definition kw_of (B : builder) (pattern_type : str) (pattern : val) (opts : dict) : option kw :=
  match pattern with
  | VStr t =>
      if str_eqb t [] || negb (forallb (fun kv => smem (key_name (fst kv)) known_options) opts) then None else
      match validator_of B opts, tags_of B opts, value_of_opt opts,
            flag_of (b_children B) (dget opts (KS (lit "children"))), flag_of (b_private_parent B) (dget opts (KS (lit "private_parent"))),
            flag_of (b_validate_all B) (dget opts (KS (lit "validate_all"))), flag_of true (dget opts (KS (lit "ignore_case"))),
            (match dget opts (KS (lit "name")) with None => Some (b_name B) | Some (VStr n) => Some n | Some _ => None end) with
      | Some v, Some tags, Some value, Some children, Some private_parent, Some validate_all, Some ignore_case, Some name =>
          let is_string := str_eqb pattern_type (lit "string") in
          match (if is_string then Some (text_kre ignore_case t) else kre_of t) with
          | Some k =>
              Some (mk_kw k (if is_string then Some (ignore_case, t) else None)
                (mk_rx (kre_re k) (map (fun g => (fst g, match snd g with [] => name | n => n end)) (kre_groups k)) name tags
                       children private_parent validate_all value
                       (match v with NoValidator => always | Plain f | ForParent f => f end)
                       (match v with Plain f => f | NoValidator | ForParent _ => always end)))
          | None => None
          end
      | _, _, _, _, _, _, _, _ => None
      end
  | _ => None
  end.
(** rebulk/pattern.py: what is found ([StringPattern] uses [find_all], [RePattern] uses [finditer]) *)
Definition kw_find (K : kw) (s : str) : res (list (nat * nat * caps)) :=
  match kw_text K with
  | Some (ignore_case, t) => starts <- find_all ignore_case s t; Ok (map (fun a => (a, a + List.length t, [])) starts)
  | None => Ok (finditer s (kre_re (kw_kre K)))
  end.
Definition kw_matches (K : kw) (s : str) : res (list mt) := fs <- kw_find K s; Ok (flat_map (rx_one (kw_rx K) s) fs).

(** the keywords of a registration, [None] for a pattern that is not read *)
Definition event_kws (B : builder) (e : event) : list (option kw) :=
  match e with
  | EReg t ps opts => map (fun p => kw_of B t p opts) ps
  | ECall _ _ => [None]
  end.
