(** Model of json.loads as load_config_file calls it (guessit/options.py:263-281; json/decoder.py and json/scanner.py of the Python library,
    with the digits of the C scanner: ASCII only), and of load_config_file itself. A position in the text is modelled by what is left of
    the text from there; the limit on the depth of nesting is not modelled; floats are what [pf] makes of their text. *)
From Verif Require Import Py Numeral Options.

(** json/decoder.py:59-69 [_decode_uXXXX] *)
Definition hex_value (c : N) : option N :=
  if (48 <=? c)%N && (c <=? 57)%N then Some (c - 48)%N else if (97 <=? c)%N && (c <=? 102)%N then Some (c - 87)%N
  else if (65 <=? c)%N && (c <=? 70)%N then Some (c - 55)%N else None.
Definition decode_u (a b c d : N) : option N :=
  match hex_value a, hex_value b, hex_value c, hex_value d with
  | Some x, Some y, Some z, Some w => Some (4096 * x + 256 * y + 16 * z + w)%N
  | _, _, _, _ => None
  end.
(** json/decoder.py:54-57 [BACKSLASH] *)
Definition backslash (c : N) : option N :=
  if (c =? 34)%N then Some 34%N else if (c =? 92)%N then Some 92%N else if (c =? 47)%N then Some 47%N else if (c =? 98)%N then Some 8%N
  else if (c =? 102)%N then Some 12%N else if (c =? 110)%N then Some 10%N else if (c =? 114)%N then Some 13%N
  else if (c =? 116)%N then Some 9%N else None.
Definition chunk (c : N) (o : option (str * str)) : option (str * str) := match o with Some (s, r) => Some (c :: s, r) | None => None end.
(** json/decoder.py:71-132 [scanstring], strict: the characters up to the closing quote, and what follows it *)
Fixpoint scanstring (s : str) : option (str * str) :=
  match s with
  | [] => None
  | c :: r =>
      if (c =? 34)%N then Some ([], r)
      else if (c =? 92)%N then
        match r with
        | [] => None
        | esc :: r1 =>
            if (esc =? 117)%N then
              match r1 with
              | a1 :: a2 :: a3 :: a4 :: r2 =>
                  match decode_u a1 a2 a3 a4 with
                  | None => None
                  | Some uni =>
                      if (55296 <=? uni)%N && (uni <=? 56319)%N && startswith [92; 117]%N r2 then
                        match r2 with
                        | _ :: _ :: b1 :: b2 :: b3 :: b4 :: r3 =>
                            match decode_u b1 b2 b3 b4 with
                            | None => None
                            | Some uni2 =>
                                if (56320 <=? uni2)%N && (uni2 <=? 57343)%N
                                then chunk (65536 + ((uni - 55296) * 1024 + (uni2 - 56320)))%N (scanstring r3)
                                else chunk uni (scanstring r2)
                            end
                        | _ => None
                        end
                      else chunk uni (scanstring r2)
                  end
              | _ => None
              end
            else match backslash esc with Some x => chunk x (scanstring r1) | None => None end
        end
      else if (c <? 32)%N then None
      else chunk c (scanstring r)
  end.

(** json/decoder.py:138 [WHITESPACE] *)
Definition whitespace (c : N) : bool := (c =? 32)%N || (c =? 9)%N || (c =? 10)%N || (c =? 13)%N.
Definition skip_ws (s : str) : str := drop_while whitespace s.

(** json/scanner.py:11-13 [NUMBER_RE]: the sign, the whole part, the fraction and the exponent, and what follows *)
Definition number_whole (s : str) : option (str * str) :=
  match s with
  | c :: r => if (c =? 48)%N then Some ([c], r) else if is_digit c then Some (take_while is_digit s, drop_while is_digit s) else None
  | [] => None
  end.
Definition number_frac (s : str) : str * str :=
  match s with
  | c :: r => if (c =? 46)%N then match take_while is_digit r with [] => ([], s) | ds => (c :: ds, drop_while is_digit r) end else ([], s)
  | [] => ([], s)
  end.
Definition number_exp (s : str) : str * str :=
  match s with
  | c :: r =>
      if (c =? 101)%N || (c =? 69)%N then
        let (sg, r1) := match r with x :: r1 => if (x =? 45)%N || (x =? 43)%N then ([x], r1) else ([], r) | [] => ([], r) end in
        match take_while is_digit r1 with [] => ([], s) | ds => (c :: sg ++ ds, drop_while is_digit r1) end
      else ([], s)
  | [] => ([], s)
  end.
Definition number_sign (s : str) : str * str := match s with c :: r => if (c =? 45)%N then ([c], r) else ([], s) | [] => ([], s) end.
(** sys.int_info.default_max_str_digits *)
Definition max_str_digits : nat := N.to_nat 4300.
(** json/scanner.py:49-57: a float if there is a fraction or an exponent, otherwise an int (at most 4300 digits, since Python 3.11) *)
Definition scan_number (pf : str -> val) (s : str) : option (option (val * str)) :=
  let (sg, r0) := number_sign s in
  match number_whole r0 with
  | None => None
  | Some (ds, r1) =>
      let (fr, r2) := number_frac r1 in
      let (ex, r3) := number_exp r2 in
      match fr ++ ex with
      | [] => if (max_str_digits <? List.length ds)%nat then Some None else Some (Some (VInt (match sg with [] => dec ds | _ => - dec ds end), r3))
      | _ => Some (Some (pf (sg ++ ds ++ fr ++ ex), r3))
      end
  end.

Definition after (w : str) (v : val) (s : str) : option (val * str) := if startswith w s then Some (v, skipn (List.length w) s) else None.
(** json/scanner.py:31-65 [_scan_once], json/decoder.py:140-212 [JSONObject], 214-248 [JSONArray] *)
Fixpoint scan_once (pf : str -> val) (fuel : nat) (s : str) : option (val * str) :=
  match fuel with
  | O => None
  | S fuel =>
      match s with
      | [] => None
      | c :: r =>
          if (c =? 34)%N then match scanstring r with Some (t, r1) => Some (VStr t, r1) | None => None end
          else if (c =? 123)%N then
            match skip_ws r with
            | c1 :: r1 =>
                if (c1 =? 125)%N then Some (VDict [], r1)
                else if (c1 =? 34)%N then match scan_members pf fuel r1 [] with Some (d, r2) => Some (VDict d, r2) | None => None end
                else None
            | [] => None
            end
          else if (c =? 91)%N then
            match skip_ws r with
            | c1 :: r1 =>
                if (c1 =? 93)%N then Some (VList [], r1)
                else match scan_items pf fuel (c1 :: r1) with Some (l, r2) => Some (VList l, r2) | None => None end
            | [] => None
            end
          else if startswith (lit "null") s then after (lit "null") VNone s
          else if startswith (lit "true") s then after (lit "true") (VBool true) s
          else if startswith (lit "false") s then after (lit "false") (VBool false) s
          else match scan_number pf s with
               | Some o => o
               | None =>
                   if startswith (lit "NaN") s then after (lit "NaN") (pf (lit "NaN")) s
                   else if startswith (lit "Infinity") s then after (lit "Infinity") (pf (lit "Infinity")) s
                   else after (lit "-Infinity") (pf (lit "-Infinity")) s
               end
      end
  end
with scan_items (pf : str -> val) (fuel : nat) (s : str) : option (list val * str) :=
  match fuel with
  | O => None
  | S fuel =>
      match scan_once pf fuel s with
      | None => None
      | Some (v, r) =>
          match skip_ws r with
          | c :: r1 =>
              if (c =? 93)%N then Some ([v], r1)
              else if (c =? 44)%N then match scan_items pf fuel (skip_ws r1) with Some (l, r2) => Some (v :: l, r2) | None => None end
              else None
          | [] => None
          end
      end
  end
with scan_members (pf : str -> val) (fuel : nat) (s : str) (pairs : dict) : option (dict * str) :=
  match fuel with
  | O => None
  | S fuel =>
      match scanstring s with
      | None => None
      | Some (k, r) =>
          match skip_ws r with
          | c :: r1 =>
              if (c =? 58)%N then
                match scan_once pf fuel (skip_ws r1) with
                | None => None
                | Some (v, r2) =>
                    match skip_ws r2 with
                    | c2 :: r3 =>
                        if (c2 =? 125)%N then Some (dset pairs (KS k) v, r3)
                        else if (c2 =? 44)%N then
                          match skip_ws r3 with
                          | c3 :: r4 => if (c3 =? 34)%N then scan_members pf fuel r4 (dset pairs (KS k) v) else None
                          | [] => None
                          end
                        else None
                    | [] => None
                    end
                end
              else None
          | [] => None
          end
      end
  end.
(** json/__init__.py:299-346 [loads], json/decoder.py:332-341 [decode] *)
Definition loads (pf : str -> val) (s : str) : res val :=
  if startswith [65279%N] s then Err ValueError
  else match scan_once pf (S (2 * List.length s)) (skip_ws s) with
       | Some (v, r) => match skip_ws r with [] => Ok v | _ => Err ValueError end
       | None => Err ValueError
       end.

(** reading a text file: the ends of lines are made line feeds *)
Fixpoint universal_newlines (s : str) : str :=
  match s with
  | [] => []
  | c :: r =>
      if (c =? 13)%N then
        match r with
        | d :: r1 => if (d =? 10)%N then 10%N :: universal_newlines r1 else 10%N :: universal_newlines r
        | [] => [10%N]
        end
      else c :: universal_newlines r
  end.
(** options.py:253-281 [load_config_file]. [files] gives the decoded contents of a file, or the error of opening or decoding it;
    [yaml] is yaml.load with the SafeLoader, if yaml can be imported *)
Definition load_config_file (pf : str -> val) (files : str -> res str) (yaml : option (str -> res val)) (filepath : str) : res val :=
  if endswith (lit ".json") filepath then t <- files filepath; loads pf (universal_newlines t)
  else if endswith (lit ".yaml") filepath || endswith (lit ".yml") filepath then
    match yaml with
    | Some load => t <- files filepath; load (universal_newlines t)
    | None => Err ConfigurationException
    end
  else match loads pf filepath with
       | Ok v => Ok v
       | Err _ => Err ConfigurationException
       end.
(** options.py:263: [filepath.endswith] of what is not a text *)
Definition load_config_value (pf : str -> val) (files : str -> res str) (yaml : option (str -> res val)) (v : val) : res val :=
  match v with VStr s => load_config_file pf files yaml s | VBytes _ => Err TypeError | _ => Err AttributeError end.
(** options.py:149-198: the environment of [load_config], with the loader above *)
Definition config_env (pf : str -> val) (files : str -> res str) (yaml : option (str -> res val)) (default : dict) (home cwd : str) (exists_ : str -> bool) : env :=
  {| env_default := default; env_home := home; env_cwd := cwd; env_yaml := match yaml with Some _ => true | None => false end;
     env_exists := exists_; env_load := load_config_value pf files yaml |}.
