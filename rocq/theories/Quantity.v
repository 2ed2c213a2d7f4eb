(** Model of guessit/rules/common/quantity.py.
    Simplifications: ASCII digits and case mapping; a float is the exact rational written. *)
From Verif Require Import Py Text Numeral.

Inductive magnitude := MInt (n : N) | MFloat (q : Q).
(** rules/common/quantity.py:13-23 *)
Record quantity := mk_q { q_magnitude : magnitude; q_units : str }.
(** the three classes of the file *)
Inductive kind := Size | BitRate | FrameRate.

(** [s.replace(old, new)], [old] non-empty: [skip] characters of a match are left out *)
Fixpoint replace_go (old new s : str) (skip : nat) : str :=
  match s with
  | [] => []
  | c :: r =>
      match skip with
      | S k => replace_go old new r k
      | O => if startswith old s then new ++ replace_go old new r (List.length old - 1)
             else c :: replace_go old new r 0
      end
  end.
Definition replace (old new s : str) : str := replace_go old new s 0.

(** [str.capitalize] *)
Definition capitalize (s : str) : str :=
  match s with [] => [] | c :: r => to_upper c :: lower r end.

(** rules/common/quantity.py:76-78, 88-94, 104-105 [parse_units]; [None] is the absent group,
    on which [.strip] fails *)
Definition parse_units (k : kind) (value : option str) : res str :=
  match k with
  | Size => match value with
            | Some v => Ok (upper (strip is_sep v))
            | None => Err AttributeError
            end
  | BitRate => match value with
               | Some v => Ok (fold_left (fun v token => replace token (lit "bps") v) [lit "bits"; lit "bit"]
                                         (capitalize (strip is_sep v)))
               | None => Err AttributeError
               end
  | FrameRate => Ok (lit "fps")
  end.

(** rules/common/quantity.py:18 [parser_re.match]: [\d+(?:[.]\d+)?] then [([^\d]+)?];
    gives the digits, the fraction digits if any, and the units if any *)
Definition parser_match (s : str) : option (str * option str * option str) :=
  match take_while is_digit s with
  | [] => None
  | d1 =>
      let r1 := drop_while is_digit s in
      let '(frac, r2) :=
        match r1 with
        | c :: r => if N.eqb c 46 then match take_while is_digit r with
                                       | [] => (None, r1)
                                       | d2 => (Some d2, drop_while is_digit r)
                                       end
                    else (None, r1)
        | [] => (None, r1)
        end in
      Some (d1, frac, match take_while (fun c => negb (is_digit c)) r2 with [] => None | u => Some u end)
  end.

(** rules/common/quantity.py:33-46 [fromstring] *)
Definition fromstring (k : kind) (s : str) : res quantity :=
  match parser_match s with
  | None => Err AttributeError
  | Some (d1, frac, units) =>
      let m := match frac with
               | None => MInt (Z.to_N (dec d1))
               | Some d2 => MFloat (Qmake (dec (d1 ++ d2)) (Pos.pow 10 (Pos.of_nat (List.length d2))))
               end in
      u <- parse_units k units; Ok (mk_q m u)
  end.

(** decimal text of a number *)
Fixpoint print_dec (fuel : nat) (n : N) (acc : str) : str :=
  match fuel with
  | O => acc
  | S f => if (n <? 10)%N then (48 + n)%N :: acc else print_dec f (n / 10)%N ((48 + n mod 10)%N :: acc)
  end.
Definition str_of_N (n : N) : str := print_dec (S (N.size_nat n)) n [].

Section FloatRepr.
  (** [repr] of a float, not modelled *)
  Context (float_repr : Q -> str).
  (** rules/common/quantity.py:64-65 [__str__] *)
  Definition str_of (q : quantity) : str :=
    match q_magnitude q with MInt n => str_of_N n | MFloat x => float_repr x end ++ q_units q.
  (** rules/common/quantity.py:48-49 [__hash__], for any string hash *)
  Definition hash_of {H} (hash : str -> H) (q : quantity) : H := hash (str_of q).
End FloatRepr.
(** rules/common/quantity.py:51-56 [__eq__] between quantities of the same class *)
Definition mag_eq (a b : magnitude) : bool :=
  let q m := match m with MInt n => inject_Z (Z.of_N n) | MFloat x => x end in Qeq_bool (q a) (q b).
Definition q_eq (a b : quantity) : bool :=
  mag_eq (q_magnitude a) (q_magnitude b) && str_eqb (q_units a) (q_units b).
