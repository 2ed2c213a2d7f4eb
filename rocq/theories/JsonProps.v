(** C103: the JSON output is JSON, and only one guess reads as it *)
From Verif Require Import Py PyFacts Text Numeral NumeralProofs Quantity QuantityProofs Json.
From Coq Require Import Arith ZifyBool.

(** * JSON texts (RFC 8259): what a text says *)
Inductive jv := JNull | JBool (b : bool) | JInt (z : Z) | JFloat (t : str) | JStr (s : str) | JArr (l : list jv) | JObj (d : list (str * jv)).

Definition blank (w : str) : Prop := forall c, In c w -> c = 32%N \/ c = 9%N \/ c = 10%N \/ c = 13%N.
Definition digit_text (ds : str) : Prop := ds <> [] /\ Forall (fun c => is_digit c = true) ds.
(** no leading zero *)
Definition whole_text (ds : str) : Prop := digit_text ds /\ (forall r, ds = 48%N :: r -> r = []).
Definition sign (s : str) : Prop := s = [] \/ s = lit "-" \/ s = lit "+".
Definition exponent (t : str) : Prop := exists e s ds, (e = 101%N \/ e = 69%N) /\ sign s /\ digit_text ds /\ t = e :: s ++ ds.
Definition fraction (t : str) : Prop := exists ds, digit_text ds /\ t = 46%N :: ds.
(** a number that is not written as an integer *)
Definition float_text (t : str) : Prop :=
  exists m ds tail, (m = [] \/ m = lit "-") /\ whole_text ds /\ t = m ++ ds ++ tail /\
    (fraction tail \/ exponent tail \/ exists f e, fraction f /\ exponent e /\ tail = f ++ e).
Definition hex_digit (c : N) (v : N) : Prop :=
  (48 <= c <= 57 /\ v = c - 48)%N \/ (97 <= c <= 102 /\ v = c - 87)%N \/ (65 <= c <= 70 /\ v = c - 55)%N.
Definition hex_four (t : str) (v : N) : Prop :=
  exists a b c d x y z w, t = [a; b; c; d] /\ hex_digit a x /\ hex_digit b y /\ hex_digit c z /\ hex_digit d w /\ v = (4096 * x + 256 * y + 16 * z + w)%N.
(** one character of a string, as written *)
Inductive written_char : str -> N -> Prop :=
| wc_plain c : (32 <= c)%N -> c <> 34%N -> c <> 92%N -> written_char [c] c
| wc_quote : written_char [92; 34]%N 34%N | wc_back : written_char [92; 92]%N 92%N | wc_slash : written_char [92; 47]%N 47%N
| wc_b : written_char [92; 98]%N 8%N | wc_f : written_char [92; 102]%N 12%N | wc_n : written_char [92; 110]%N 10%N
| wc_r : written_char [92; 114]%N 13%N | wc_t : written_char [92; 116]%N 9%N
| wc_u a b c d x y z w v : hex_digit a x -> hex_digit b y -> hex_digit c z -> hex_digit d w ->
    v = (4096 * x + 256 * y + 16 * z + w)%N -> (v < 55296 \/ 57343 < v)%N -> written_char [92; 117; a; b; c; d]%N v
(** a character beyond U+FFFF, as a surrogate pair *)
| wc_pair a b c d e f g h hi lo : hex_four [a; b; c; d]%N hi -> hex_four [e; f; g; h]%N lo -> (55296 <= hi <= 56319)%N -> (56320 <= lo <= 57343)%N ->
    written_char [92; 117; a; b; c; d; 92; 117; e; f; g; h]%N (65536 + ((hi - 55296) * 1024 + (lo - 56320)))%N.
Inductive written_chars : str -> str -> Prop :=
| ws_nil : written_chars [] []
| ws_cons t c r s : written_char t c -> written_chars r s -> written_chars (t ++ r) (c :: s).
Definition string_text (t s : str) : Prop := exists b, written_chars b s /\ t = [34%N] ++ b ++ [34%N].

Inductive says : str -> jv -> Prop :=
| says_null : says (lit "null") JNull
| says_true : says (lit "true") (JBool true)
| says_false : says (lit "false") (JBool false)
| says_int ds : whole_text ds -> says ds (JInt (decimal ds))
| says_minus ds : whole_text ds -> says (lit "-" ++ ds) (JInt (- decimal ds))
| says_float t : float_text t -> says t (JFloat t)
| says_string t s : string_text t s -> says t (JStr s)
| says_empty_list w : blank w -> says ([91%N] ++ w ++ [93%N]) (JArr [])
| says_list t vs : say_items t vs -> says ([91%N] ++ t ++ [93%N]) (JArr vs)
| says_empty_object w : blank w -> says ([123%N] ++ w ++ [125%N]) (JObj [])
| says_object t kvs : say_members t kvs -> says ([123%N] ++ t ++ [125%N]) (JObj kvs)
| says_blank w1 w2 t v : blank w1 -> blank w2 -> says t v -> says (w1 ++ t ++ w2) v
with say_items : str -> list jv -> Prop :=
| items_one t v : says t v -> say_items t [v]
| items_more t v r vs : says t v -> say_items r vs -> say_items (t ++ [44%N] ++ r) (v :: vs)
with say_members : str -> list (str * jv) -> Prop :=
| members_one w1 w2 n k t v : blank w1 -> blank w2 -> string_text n k -> says t v -> say_members (w1 ++ n ++ w2 ++ [58%N] ++ t) [(k, v)]
| members_more w1 w2 n k t v r kvs : blank w1 -> blank w2 -> string_text n k -> says t v -> say_members r kvs ->
    say_members (w1 ++ n ++ w2 ++ [58%N] ++ t ++ [44%N] ++ r) ((k, v) :: kvs).
Scheme says_rec2 := Induction for says Sort Prop with items_rec2 := Induction for say_items Sort Prop with members_rec2 := Induction for say_members Sort Prop.
Combined Scheme says_all from says_rec2, items_rec2, members_rec2.

(** * What a guess holds: matches are told with their value, their text unless it is empty, and their place; other objects by their name, or
    else by their text *)
Fixpoint holds (v : pyv) : jv :=
  match v with
  | PNone => JNull | PBool b => JBool b | PInt z => JInt z | PFloat t => JFloat t | PStr s => JStr s
  | PList l => JArr (map holds l)
  | PDict d => JObj (map (fun kv => (fst kv, holds (snd kv))) d)
  | PMatch value [] start stop _ => JObj [(lit "value", holds value); (lit "start", JInt (Z.of_nat start)); (lit "end", JInt (Z.of_nat stop))]
  | PMatch value raw start stop _ =>
      JObj [(lit "value", holds value); (lit "raw", JStr raw); (lit "start", JInt (Z.of_nat start)); (lit "end", JInt (Z.of_nat stop))]
  | PThing (Some name) _ => JStr name
  | PThing None text => JStr text
  end.
(** every float is a finite number: its writing is that of a JSON number *)
Fixpoint finite (v : pyv) : Prop :=
  match v with
  | PFloat t => float_text t
  | PList l => fold_right (fun x p => finite x /\ p) True l
  | PDict d => fold_right (fun x p => finite (snd x) /\ p) True d
  | PMatch value _ _ _ _ => finite value
  | _ => True
  end.

(** * A reader, and that it reads all JSON texts *)
Definition blankb (c : N) : bool := (c =? 32)%N || (c =? 9)%N || (c =? 10)%N || (c =? 13)%N.
Fixpoint skip (s : str) : str := match s with c :: r => if blankb c then skip r else s | [] => [] end.
Definition unhex (c : N) : N := if (c <=? 57)%N then (c - 48)%N else if (97 <=? c)%N then (c - 87)%N else (c - 55)%N.
Definition unhex4 (a b c d : N) : N := (4096 * unhex a + 256 * unhex b + 16 * unhex c + unhex d)%N.
Definition unescape (c : N) : option N :=
  if (c =? 34)%N then Some 34%N else if (c =? 92)%N then Some 92%N else if (c =? 47)%N then Some 47%N else if (c =? 98)%N then Some 8%N
  else if (c =? 102)%N then Some 12%N else if (c =? 110)%N then Some 10%N else if (c =? 114)%N then Some 13%N
  else if (c =? 116)%N then Some 9%N else None.
Definition push (c : N) (o : option (str * str)) : option (str * str) := match o with Some (s, r) => Some (c :: s, r) | None => None end.
Fixpoint read_chars (n : nat) (s : str) : option (str * str) :=
  match n with
  | O => None
  | Datatypes.S n =>
      match s with
      | [] => None
      | c :: r =>
          if (c =? 34)%N then Some ([], r)
          else if (c =? 92)%N then
            match r with
            | e :: r1 =>
                if (e =? 117)%N then
                  match r1 with
                  | a :: b :: c :: d :: r2 =>
                      let u := unhex4 a b c d in
                      if (55296 <=? u)%N && (u <=? 57343)%N then
                        match r2 with
                        | _ :: _ :: e :: f :: g :: h :: r3 => push (65536 + ((u - 55296) * 1024 + (unhex4 e f g h - 56320)))%N (read_chars n r3)
                        | _ => None
                        end
                      else push u (read_chars n r2)
                  | _ => None
                  end
                else match unescape e with Some x => push x (read_chars n r1) | None => None end
            | [] => None
            end
          else push c (read_chars n r)
      end
  end.
Definition num_char (c : N) : bool := is_digit c || (c =? 45)%N || (c =? 43)%N || (c =? 46)%N || (c =? 101)%N || (c =? 69)%N.
Definition mark (c : N) : bool := (c =? 46)%N || (c =? 101)%N || (c =? 69)%N.
Definition number (t : str) : jv :=
  if existsb mark t then JFloat t else match t with c :: r => if (c =? 45)%N then JInt (- decimal r) else JInt (decimal t) | [] => JInt 0 end.
Definition eats (c : N) (s : str) : option str := match s with x :: r => if (x =? c)%N then Some r else None | [] => None end.
Fixpoint read (n : nat) (s : str) : option (jv * str) :=
  match n with
  | O => None
  | Datatypes.S n =>
      match skip s with
      | [] => None
      | c :: r =>
          if (c =? 34)%N then match read_chars n r with Some (k, r') => Some (JStr k, skip r') | None => None end
          else if (c =? 91)%N then
            match eats 93 (skip r) with
            | Some r' => Some (JArr [], skip r')
            | None => match read_items n r with Some (vs, r') => Some (JArr vs, skip r') | None => None end
            end
          else if (c =? 123)%N then
            match eats 125 (skip r) with
            | Some r' => Some (JObj [], skip r')
            | None => match read_members n r with Some (vs, r') => Some (JObj vs, skip r') | None => None end
            end
          else if (c =? 110)%N then Some (JNull, skip (skipn 3 r))
          else if (c =? 116)%N then Some (JBool true, skip (skipn 3 r))
          else if (c =? 102)%N then Some (JBool false, skip (skipn 4 r))
          else Some (number (take_while num_char (c :: r)), skip (drop_while num_char (c :: r)))
      end
  end
with read_items (n : nat) (s : str) : option (list jv * str) :=
  match n with
  | O => None
  | Datatypes.S n =>
      match read n s with
      | Some (v, r) =>
          match eats 44 r with
          | Some r => match read_items n r with Some (vs, r') => Some (v :: vs, r') | None => None end
          | None => match eats 93 r with Some r => Some ([v], r) | None => None end
          end
      | None => None
      end
  end
with read_members (n : nat) (s : str) : option (list (str * jv) * str) :=
  match n with
  | O => None
  | Datatypes.S n =>
      match eats 34 (skip s) with
      | Some r =>
          match read_chars n r with
          | Some (k, r1) =>
              match eats 58 (skip r1) with
              | Some r2 =>
                  match read n r2 with
                  | Some (v, r) =>
                      match eats 44 r with
                      | Some r => match read_members n r with Some (vs, r') => Some ((k, v) :: vs, r') | None => None end
                      | None => match eats 125 r with Some r => Some ([(k, v)], r) | None => None end
                      end
                  | None => None
                  end
              | None => None
              end
          | None => None
          end
      | None => None
      end
  end.

Lemma blank_iff c : blankb c = true <-> c = 32%N \/ c = 9%N \/ c = 10%N \/ c = 13%N.
Proof. unfold blankb. lia. Qed.
Lemma skip_blank w s : blank w -> skip (w ++ s) = skip s.
Proof.
  induction w as [|c w IH]; intros H; [reflexivity|]. cbn [app skip]. rewrite (proj2 (blank_iff c)); [|apply H; left; reflexivity].
  apply IH. intros x Hx. apply H. right. exact Hx.
Qed.
Lemma skip_head s c r : skip s = c :: r -> blankb c = false.
Proof. induction s as [|x s IH]; [discriminate|]. cbn [skip]. destruct (blankb x) eqn:E; [exact IH|]. intros H. injection H as <- _. exact E. Qed.
Lemma skip_skip s : skip (skip s) = skip s.
Proof. destruct (skip s) as [|c r] eqn:E; [reflexivity|]. cbn [skip]. rewrite (skip_head s c r E). reflexivity. Qed.
Lemma skip_solid c r : blankb c = false -> skip (c :: r) = c :: r.
Proof. intros H. cbn [skip]. rewrite H. reflexivity. Qed.
Lemma read_pad w s n : blank w -> read n (w ++ s) = read n s.
Proof. intros H. destruct n; [reflexivity|]. cbn [read]. rewrite (skip_blank w s H). reflexivity. Qed.

(** what may come after a value *)
Definition follow (r : str) : Prop := match r with [] => True | c :: _ => blankb c = true \/ c = 44%N \/ c = 93%N \/ c = 125%N end.
Lemma follow_stops r : follow r -> match r with [] => True | c :: _ => num_char c = false end.
Proof. destruct r as [|c r]; [trivial|]. cbn. unfold blankb, num_char, is_digit. lia. Qed.
Lemma follow_blank w r : blank w -> follow r -> follow (w ++ r).
Proof. destruct w as [|c w]; intros H F; [exact F|]. left. apply blank_iff, H. left. reflexivity. Qed.

Lemma unhex_is a x : hex_digit a x -> unhex a = x.
Proof. unfold hex_digit, unhex. intros H. destruct (a <=? 57)%N eqn:E1; [lia|]. destruct (97 <=? a)%N eqn:E2; lia. Qed.
Lemma unhex4_is a b c d v : hex_four [a; b; c; d] v -> unhex4 a b c d = v.
Proof.
  intros (a' & b' & c' & d' & x & y & z & w & E & A & B & C & D & ->). injection E as -> -> -> ->. unfold unhex4.
  rewrite (unhex_is _ _ A), (unhex_is _ _ B), (unhex_is _ _ C), (unhex_is _ _ D). reflexivity.
Qed.
Lemma chars_read b s : written_chars b s -> forall r, exists n0, forall n, n0 <= n -> read_chars n (b ++ [34%N] ++ r) = Some (s, r).
Proof.
  induction 1 as [|t c b s W _ IH]; intros r.
  - exists 1. intros [|n] Hn; [lia|]. reflexivity.
  - destruct (IH r) as (n0 & H). exists (Datatypes.S n0). intros [|n] Hn; [lia|]. specialize (H n ltac:(lia)).
    rewrite <- app_assoc. destruct W; cbn [app read_chars]; try (cbn [app] in H; rewrite H; reflexivity).
    + destruct (c =? 34)%N eqn:E1; [lia|]. destruct (c =? 92)%N eqn:E2; [lia|]. cbn [app] in H. rewrite H. reflexivity.
    + change (92 =? 34)%N with false. change (92 =? 92)%N with true. change (117 =? 117)%N with true. cbv iota.
      assert (U : unhex4 a b0 c d = v) by (apply unhex4_is; exists a, b0, c, d, x, y, z, w; auto 10). rewrite U. cbv zeta.
      replace ((55296 <=? v)%N && (v <=? 57343)%N) with false by lia. cbn [app] in H. rewrite H. reflexivity.
    + change (92 =? 34)%N with false. change (92 =? 92)%N with true. change (117 =? 117)%N with true. cbv iota.
      rewrite (unhex4_is _ _ _ _ _ H0), (unhex4_is _ _ _ _ _ H1). cbv zeta. replace ((55296 <=? hi)%N && (hi <=? 57343)%N) with true by lia.
      cbn [app] in H. rewrite H. reflexivity.
Qed.
Lemma string_read t s r : string_text t s -> exists n0, forall n, n0 <= n -> read n (t ++ r) = Some (JStr s, skip r).
Proof.
  intros (b & W & ->). destruct (chars_read b s W r) as (n0 & H). exists (Datatypes.S n0). intros [|n] Hn; [lia|].
  specialize (H n ltac:(lia)). rewrite <- !app_assoc. cbn [app read]. rewrite (skip_solid 34%N _ eq_refl). change (34 =? 34)%N with true. cbv iota.
  cbn [app] in H. rewrite H. reflexivity.
Qed.

Lemma digits_num ds : Forall (fun c => is_digit c = true) ds -> Forall (fun c => num_char c = true) ds.
Proof. apply Forall_impl. intros c H. unfold num_char. rewrite H. reflexivity. Qed.
Lemma digits_plain ds : Forall (fun c => is_digit c = true) ds -> existsb mark ds = false.
Proof. induction 1 as [|c ds H _ IH]; [reflexivity|]. cbn [existsb]. rewrite IH. revert H. unfold mark, is_digit. lia. Qed.
Definition number_start (t : str) : Prop := match t with c :: _ => is_digit c = true \/ c = 45%N | [] => False end.
Lemma number_read t v r : number_start t -> Forall (fun c => num_char c = true) t -> number t = v -> follow r ->
  exists n0, forall n, n0 <= n -> read n (t ++ r) = Some (v, skip r).
Proof.
  intros S F V Fo. exists 1. intros [|n] Hn; [lia|].
  destruct (take_while_app num_char t r F (follow_stops r Fo)) as [E1 E2].
  destruct t as [|c t]; [contradiction|]. cbn [app] in *. cbn [read]. cbn [number_start] in S.
  assert (Hb : blankb c = false) by (revert S; unfold blankb, is_digit; lia). rewrite (skip_solid c _ Hb).
  assert (Hc : (c =? 34)%N = false /\ (c =? 91)%N = false /\ (c =? 123)%N = false /\ (c =? 110)%N = false /\ (c =? 116)%N = false /\ (c =? 102)%N = false)
    by (revert S; unfold is_digit; lia).
  destruct Hc as (-> & -> & -> & -> & -> & ->). rewrite E1, E2, V. reflexivity.
Qed.
Lemma whole_number ds : whole_text ds -> number_start ds /\ Forall (fun c => num_char c = true) ds /\ number ds = JInt (decimal ds).
Proof.
  intros ((Hn & F) & _). split; [|split; [exact (digits_num ds F)|]].
  - destruct F; [congruence|left; assumption].
  - unfold number. rewrite (digits_plain ds F). destruct F as [|c ds H F]; [congruence|]. destruct (c =? 45)%N eqn:E; [|reflexivity].
    revert H. unfold is_digit. lia.
Qed.
Lemma minus_number ds : whole_text ds -> Forall (fun c => num_char c = true) (lit "-" ++ ds) /\ number (lit "-" ++ ds) = JInt (- decimal ds).
Proof.
  intros ((Hn & F) & _). split; [constructor; [reflexivity|exact (digits_num ds F)]|]. unfold number. cbn [app existsb]. change (lit "-") with [45%N].
  cbn [app existsb]. rewrite (digits_plain ds F). reflexivity.
Qed.
Lemma fraction_num t : fraction t -> Forall (fun c => num_char c = true) t /\ existsb mark t = true.
Proof. intros (ds & (_ & F) & ->). split; [constructor; [reflexivity|exact (digits_num ds F)]|reflexivity]. Qed.
Lemma exponent_num t : exponent t -> Forall (fun c => num_char c = true) t /\ existsb mark t = true.
Proof.
  intros (e & s & ds & He & Hs & (_ & F) & ->). split; [|destruct He as [-> | ->]; reflexivity].
  constructor; [destruct He as [-> | ->]; reflexivity|]. apply Forall_app. split; [|exact (digits_num ds F)].
  destruct Hs as [-> |[-> | ->]]; repeat constructor.
Qed.
Lemma float_number t : float_text t -> number_start t /\ Forall (fun c => num_char c = true) t /\ number t = JFloat t.
Proof.
  intros (m & ds & tail & Hm & ((Hn & F) & _) & -> & T).
  assert (Ht : Forall (fun c => num_char c = true) tail /\ existsb mark tail = true).
  { destruct T as [T|[T|(f & e & T1 & T2 & ->)]]; [exact (fraction_num _ T)|exact (exponent_num _ T)|].
    destruct (fraction_num _ T1), (exponent_num _ T2). split; [apply Forall_app; split; assumption|]. rewrite existsb_app, H0. reflexivity. }
  destruct Ht as [Ht Hk]. split; [|split].
  - destruct F as [|c ds Hc F]; [congruence|]. destruct Hm as [-> | ->]; [exact (or_introl Hc)|exact (or_intror eq_refl)].
  - apply Forall_app. split; [destruct Hm as [-> | ->]; repeat constructor|]. apply Forall_app. split; [exact (digits_num ds F)|exact Ht].
  - unfold number. rewrite !existsb_app, Hk, !orb_true_r. reflexivity.
Qed.

(** how values begin *)
Definition begins (s : str) : Prop := match s with c :: _ => blankb c = false /\ c <> 93%N /\ c <> 125%N | [] => False end.
Lemma number_begins t r : number_start t -> begins (skip (t ++ r)).
Proof.
  destruct t as [|c t]; [contradiction|]. cbn [number_start app]. intros S. assert (Hb : blankb c = false) by (revert S; unfold blankb, is_digit; lia).
  rewrite (skip_solid c _ Hb). split; [exact Hb|]. revert S. unfold is_digit. lia.
Qed.
Lemma says_begins t v : says t v -> forall r, begins (skip (t ++ r)).
Proof.
  induction 1 as [| | | ds W| ds W| t F| t s (b & _ & ->)| w B| t vs I| w B| t kvs M| w1 w2 t v B1 B2 S IH]; intros r;
    try (cbn; repeat split; congruence).
  - apply number_begins, whole_number, W.
  - apply number_begins, float_number, F.
  - rewrite <- !app_assoc, (skip_blank w1 _ B1). apply IH.
Qed.
Lemma no_close t r : begins (skip (t ++ r)) -> eats 93 (skip (t ++ r)) = None.
Proof. unfold eats. destruct (skip (t ++ r)) as [|c u]; [contradiction|]. cbn. intros (_ & H & _). destruct (c =? 93)%N eqn:E; [lia|reflexivity]. Qed.
Lemma items_begin t vs : say_items t vs -> forall r, begins (skip (t ++ r)).
Proof. destruct 1 as [t v S|t v u vs S _]; intros r; [|rewrite <- app_assoc]; apply (says_begins _ _ S). Qed.
Lemma members_begin t kvs : say_members t kvs -> forall r, exists u, skip (t ++ r) = 34%N :: u.
Proof.
  destruct 1 as [w1 w2 n k t v B1 B2 (b & _ & ->) _|w1 w2 n k t v u kvs B1 B2 (b & _ & ->) _ _]; intros r;
    rewrite <- !app_assoc, (skip_blank w1 _ B1); eexists; reflexivity.
Qed.

Lemma all_read :
  (forall t v, says t v -> forall r, follow r -> exists n0, forall n, n0 <= n -> read n (t ++ r) = Some (v, skip r)) /\
  (forall t vs, say_items t vs -> forall r, exists n0, forall n, n0 <= n -> read_items n (t ++ [93%N] ++ r) = Some (vs, r)) /\
  (forall t kvs, say_members t kvs -> forall r, exists n0, forall n, n0 <= n -> read_members n (t ++ [125%N] ++ r) = Some (kvs, r)).
Proof.
  apply says_all.
  - intros r _. exists 1. intros [|n] Hn; [lia|]. reflexivity.
  - intros r _. exists 1. intros [|n] Hn; [lia|]. reflexivity.
  - intros r _. exists 1. intros [|n] Hn; [lia|]. reflexivity.
  - intros ds W r Fo. destruct (whole_number ds W) as (A & B & C). exact (number_read ds _ r A B C Fo).
  - intros ds W r Fo. destruct (minus_number ds W) as (B & C). exact (number_read (lit "-" ++ ds) _ r (or_intror eq_refl) B C Fo).
  - intros t F r Fo. destruct (float_number t F) as (A & B & C). exact (number_read t _ r A B C Fo).
  - intros t s S r _. exact (string_read t s r S).
  - intros w B r _. exists 1. intros [|n] Hn; [lia|]. rewrite <- !app_assoc. cbn [app read]. rewrite (skip_solid 91%N _ eq_refl).
    change (91 =? 34)%N with false. change (91 =? 91)%N with true. cbv iota. rewrite (skip_blank w _ B). reflexivity.
  - intros t vs I IH r _. destruct (IH r) as (n0 & H). exists (Datatypes.S n0). intros [|n] Hn; [lia|]. specialize (H n ltac:(lia)).
    rewrite <- !app_assoc. cbn [app read]. rewrite (skip_solid 91%N _ eq_refl).
    change (91 =? 34)%N with false. change (91 =? 91)%N with true. cbv iota. cbn [app] in H. rewrite (no_close t _ (items_begin t vs I _)), H. reflexivity.
  - intros w B r _. exists 1. intros [|n] Hn; [lia|]. rewrite <- !app_assoc. cbn [app read]. rewrite (skip_solid 123%N _ eq_refl).
    change (123 =? 34)%N with false. change (123 =? 91)%N with false. change (123 =? 123)%N with true. cbv iota. rewrite (skip_blank w _ B). reflexivity.
  - intros t kvs I IH r _. destruct (IH r) as (n0 & H). exists (Datatypes.S n0). intros [|n] Hn; [lia|]. specialize (H n ltac:(lia)).
    rewrite <- !app_assoc. cbn [app read]. rewrite (skip_solid 123%N _ eq_refl).
    change (123 =? 34)%N with false. change (123 =? 91)%N with false. change (123 =? 123)%N with true. cbv iota. cbn [app] in H.
    destruct (members_begin t kvs I (125%N :: r)) as (u & E). rewrite E. cbn [eats]. change (34 =? 125)%N with false. cbv iota. rewrite H. reflexivity.
  - intros w1 w2 t v B1 B2 S IH r Fo. destruct (IH (w2 ++ r) (follow_blank w2 r B2 Fo)) as (n0 & H). exists n0. intros n Hn.
    rewrite <- !app_assoc, (read_pad w1 _ n B1), (H n Hn), (skip_blank w2 r B2). reflexivity.
  - intros t v S IH r. destruct (IH ([93%N] ++ r)) as (n0 & H); [right; right; left; reflexivity|]. exists (Datatypes.S n0). intros [|n] Hn; [lia|].
    cbn [read_items]. rewrite (H n ltac:(lia)). reflexivity.
  - intros t v u vs S IH1 _ IH2 r. destruct (IH1 ([44%N] ++ u ++ [93%N] ++ r)) as (n1 & H1); [right; left; reflexivity|]. destruct (IH2 r) as (n2 & H2).
    exists (Datatypes.S (Nat.max n1 n2)). intros [|n] Hn; [lia|]. rewrite <- !app_assoc. cbn [read_items]. rewrite (H1 n ltac:(lia)). cbn [app skip].
    change (blankb 44) with false. cbv iota. cbn [eats]. change (44 =? 44)%N with true. cbv iota. specialize (H2 n ltac:(lia)). cbn [app] in H2. rewrite H2. reflexivity.
  - intros w1 w2 m k t v B1 B2 (b & W & ->) S IH r. destruct (IH ([125%N] ++ r)) as (n1 & H1); [right; right; right; reflexivity|].
    destruct (chars_read b k W (w2 ++ [58%N] ++ t ++ [125%N] ++ r)) as (n2 & H2). exists (Datatypes.S (Nat.max n1 n2)). intros [|n] Hn; [lia|].
    rewrite <- !app_assoc. cbn [read_members]. rewrite (skip_blank w1 _ B1). specialize (H2 n ltac:(lia)). cbn [app] in *. rewrite (skip_solid 34%N _ eq_refl).
    cbn [eats]. change (34 =? 34)%N with true. cbv iota. rewrite H2, (skip_blank w2 _ B2), (skip_solid 58%N _ eq_refl).
    cbn [eats]. change (58 =? 58)%N with true. cbv iota. rewrite (H1 n ltac:(lia)). reflexivity.
  - intros w1 w2 m k t v u kvs B1 B2 (b & W & ->) S IH _ IH2 r. destruct (IH ([44%N] ++ u ++ [125%N] ++ r)) as (n1 & H1); [right; left; reflexivity|].
    destruct (chars_read b k W (w2 ++ [58%N] ++ t ++ [44%N] ++ u ++ [125%N] ++ r)) as (n2 & H2). destruct (IH2 r) as (n3 & H3).
    exists (Datatypes.S (Nat.max n1 (Nat.max n2 n3))). intros [|n] Hn; [lia|].
    rewrite <- !app_assoc. cbn [read_members]. rewrite (skip_blank w1 _ B1). specialize (H2 n ltac:(lia)). specialize (H3 n ltac:(lia)). cbn [app] in *.
    rewrite (skip_solid 34%N _ eq_refl). cbn [eats]. change (34 =? 34)%N with true. cbv iota. rewrite H2, (skip_blank w2 _ B2), (skip_solid 58%N _ eq_refl).
    cbn [eats]. change (58 =? 58)%N with true. cbv iota. rewrite (H1 n ltac:(lia)), (skip_solid 44%N _ eq_refl).
    cbn [eats]. change (44 =? 44)%N with true. cbv iota. rewrite H3. reflexivity.
Qed.

(** a text says at most one thing *)
Theorem C103_unique s a b : says s a -> says s b -> a = b.
Proof.
  intros A B. destruct (proj1 all_read s a A [] Logic.I) as (n1 & H1). destruct (proj1 all_read s b B [] Logic.I) as (n2 & H2).
  specialize (H1 (n1 + n2) ltac:(lia)). specialize (H2 (n1 + n2) ltac:(lia)). congruence.
Qed.

(** * The texts printed *)
Section Induction.
  Variable P : pyv -> Prop.
  Hypotheses (H0 : P PNone) (H1 : forall b, P (PBool b)) (H2 : forall z, P (PInt z)) (H3 : forall t, P (PFloat t)) (H4 : forall s, P (PStr s))
    (H5 : forall l, Forall P l -> P (PList l)) (H6 : forall d, Forall (fun kv => P (snd kv)) d -> P (PDict d))
    (H7 : forall v raw a b n, P v -> P (PMatch v raw a b n)) (H8 : forall n t, P (PThing n t)).
  Fixpoint pyv_all (v : pyv) : P v :=
    match v with
    | PNone => H0 | PBool b => H1 b | PInt z => H2 z | PFloat t => H3 t | PStr s => H4 s
    | PList l => H5 l ((fix go (l : list pyv) : Forall P l := match l with [] => Forall_nil P | x :: r => Forall_cons x (pyv_all x) (go r) end) l)
    | PDict d => H6 d ((fix go (d : list (str * pyv)) : Forall (fun kv => P (snd kv)) d :=
        match d with [] => Forall_nil _ | x :: r => Forall_cons x (pyv_all (snd x)) (go r) end) d)
    | PMatch v raw a b n => H7 v raw a b n (pyv_all v)
    | PThing n t => H8 n t
    end.
End Induction.

Lemma hex_is n : (n < 16)%N -> hex_digit (hex n) n.
Proof. intros H. unfold hex, hex_digit. destruct (n <? 10)%N eqn:E; lia. Qed.
Lemma escape_is c : written_char (escape c) c.
Proof.
  unfold escape. destruct (c =? 92)%N eqn:E1; [apply N.eqb_eq in E1; subst; constructor|]. destruct (c =? 34)%N eqn:E2; [apply N.eqb_eq in E2; subst; constructor|].
  destruct (c =? 8)%N eqn:E3; [apply N.eqb_eq in E3; subst; constructor|]. destruct (c =? 12)%N eqn:E4; [apply N.eqb_eq in E4; subst; constructor|].
  destruct (c =? 10)%N eqn:E5; [apply N.eqb_eq in E5; subst; constructor|]. destruct (c =? 13)%N eqn:E6; [apply N.eqb_eq in E6; subst; constructor|].
  destruct (c =? 9)%N eqn:E7; [apply N.eqb_eq in E7; subst; constructor|]. destruct (c <? 32)%N eqn:E8; [|constructor; lia].
  change (lit "\u00" ++ [hex (c / 16); hex (c mod 16)]%N) with [92; 117; 48; 48; hex (c / 16); hex (c mod 16)]%N.
  assert (D : c = (16 * (c / 16) + c mod 16)%N) by (apply N.div_mod; discriminate).
  assert (M : (c mod 16 < 16)%N) by (apply N.mod_lt; discriminate). set (q := (c / 16)%N) in *. set (m := (c mod 16)%N) in *. clearbody q m.
  apply (wc_u 48 48 (hex q) (hex m) 0 0 q m); [left; lia|left; lia|apply hex_is; lia|apply hex_is; lia|lia|lia].
Qed.
Lemma quote_is s : string_text (quote s) s.
Proof. exists (flat_map escape s). split; [|reflexivity]. induction s as [|c s IH]; [constructor|]. cbn [flat_map]. constructor; [apply escape_is|exact IH]. Qed.
Lemma escape_visible c x : In x (escape c) -> (32 <= x)%N.
Proof.
  unfold escape. destruct (c =? 92)%N; [intros H; cbn in H; lia|]. destruct (c =? 34)%N; [intros H; cbn in H; lia|].
  destruct (c =? 8)%N; [intros H; cbn in H; lia|]. destruct (c =? 12)%N; [intros H; cbn in H; lia|]. destruct (c =? 10)%N; [intros H; cbn in H; lia|].
  destruct (c =? 13)%N; [intros H; cbn in H; lia|]. destruct (c =? 9)%N; [intros H; cbn in H; lia|]. destruct (c <? 32)%N eqn:E; [|intros [<- |[]]; lia].
  intros H. apply in_app_or in H. destruct H as [H|[<- |[<- |[]]]]; [cbn in H; lia| |]; unfold hex.
  - destruct (c / 16 <? 10)%N; lia.
  - destruct (c mod 16 <? 10)%N; lia.
Qed.
Lemma quote_visible s x : In x (quote s) -> (32 <= x)%N.
Proof.
  unfold quote. intros H. apply in_app_or in H. destruct H as [[<- |[]]|H]; [lia|]. apply in_app_or in H. destruct H as [H|[<- |[]]]; [|lia].
  apply in_flat_map in H. destruct H as (c & _ & H). exact (escape_visible c x H).
Qed.

Lemma print_head fuel n acc : (n < 2 ^ N.of_nat fuel)%N -> n <> 0%N -> fuel <> 0 -> exists c r, print_dec fuel n acc = c :: r /\ c <> 48%N.
Proof.
  revert n acc. induction fuel as [|f IH]; intros n acc Hn Hz Hf; [congruence|]. cbn [print_dec].
  destruct (n <? 10)%N eqn:E; [exists (48 + n)%N, acc; split; [reflexivity|lia]|].
  assert (L : (n / 10 <> 0)%N) by (intros D; apply N.div_small_iff in D; lia).
  assert (B : (n / 10 < 2 ^ N.of_nat f)%N).
  { apply N.div_lt_upper_bound; [lia|]. rewrite Nat2N.inj_succ, N.pow_succ_r' in Hn. lia. }
  apply IH; [exact B|exact L|]. intros ->. cbn in B. lia.
Qed.
Lemma int_is z : says (int_repr z) (JInt z).
Proof.
  assert (W : forall n, whole_text (str_of_N n) /\ decimal (str_of_N n) = Z.of_N n).
  { intros n. destruct (str_of_N_spec n) as (A & B & C). rewrite dec_decimal in C. split; [|exact C]. split; [split; assumption|].
    intros r E. destruct (N.eq_dec n 0) as [-> |Z]; [cbv in E; injection E as <-; reflexivity|].
    destruct (print_head (Datatypes.S (N.size_nat n)) n [] (size_nat_bound n) Z ltac:(lia)) as (c & u & E2 & K).
    unfold str_of_N in E. rewrite E2 in E. injection E as -> _. congruence. }
  unfold int_repr. destruct (z <? 0)%Z eqn:E.
  - destruct (W (Z.to_N (- z))) as (A & B). replace z with (- decimal (str_of_N (Z.to_N (- z))))%Z at 2 by lia. exact (says_minus _ A).
  - destruct (W (Z.to_N z)) as (A & B). replace z with (decimal (str_of_N (Z.to_N z))) at 2 by lia. exact (says_int _ A).
Qed.
Lemma new_line_blank indent level : blank (new_line indent level).
Proof.
  unfold new_line. destruct indent as [n|]; [|intros c []]. intros c [<- |H]; [auto|]. apply repeat_spec in H. auto.
Qed.
Lemma comma_is indent level : exists w, blank w /\ comma indent level = [44%N] ++ w.
Proof.
  unfold comma. destruct indent as [n|].
  - exists (new_line (Some n) level). split; [apply new_line_blank|reflexivity].
  - exists [32%N]. split; [intros c [<- |[]]; auto|reflexivity].
Qed.
Lemma items_are w e sp : blank e -> blank sp -> forall items vs, Forall2 says items vs -> items <> [] -> blank w ->
  say_items (w ++ concat_with ([44%N] ++ sp) items ++ e) vs.
Proof.
  intros He Hs items vs F. revert w. induction F as [|t v items vs S F IH]; intros w Hn Hw; [congruence|].
  destruct F as [|t2 v2 items vs S2 F].
  - cbn [concat_with flat_map]. rewrite app_nil_r. apply items_one, says_blank; assumption.
  - replace (w ++ concat_with ([44%N] ++ sp) (t :: t2 :: items) ++ e)
      with ((w ++ t ++ []) ++ [44%N] ++ (sp ++ concat_with ([44%N] ++ sp) (t2 :: items) ++ e))
      by (cbn [concat_with flat_map]; rewrite app_nil_r, <- !app_assoc; reflexivity).
    apply items_more; [apply says_blank; [exact Hw|intros c []|exact S]|]. apply IH; [discriminate|exact Hs].
Qed.
Lemma list_is indent level items vs : Forall2 says items vs -> says (container indent level 91 93 items) (JArr vs).
Proof.
  intros F. destruct F as [|t v items vs S F]; [exact (says_empty_list [] (fun c (H : In c []) => match H with end))|]. unfold container.
  destruct (comma_is indent (Datatypes.S level)) as (sp & Hs & ->).
  replace ([91%N] ++ new_line indent (Datatypes.S level) ++ concat_with ([44%N] ++ sp) (t :: items) ++ new_line indent level ++ [93%N])
    with ([91%N] ++ (new_line indent (Datatypes.S level) ++ concat_with ([44%N] ++ sp) (t :: items) ++ new_line indent level) ++ [93%N])
    by (rewrite <- !app_assoc; reflexivity).
  apply says_list, items_are; [apply new_line_blank|exact Hs|constructor; assumption|discriminate|apply new_line_blank].
Qed.
Definition pair_says (t : str) (kv : str * jv) : Prop := exists u, t = quote (fst kv) ++ lit ": " ++ u /\ says u (snd kv).
Lemma members_are w e sp : blank e -> blank sp -> forall items kvs, Forall2 pair_says items kvs -> items <> [] -> blank w ->
  say_members (w ++ concat_with ([44%N] ++ sp) items ++ e) kvs.
Proof.
  assert (B1 : blank [32%N]) by (intros c [<- |[]]; auto). assert (B0 : blank []) by intros c [].
  intros He Hs items vs F. revert w. induction F as [|t [k v] items vs (u & -> & S) F IH]; intros w Hn Hw; [congruence|]. cbn [fst snd] in *.
  destruct F as [|t2 v2 items vs S2 F].
  - cbn [concat_with flat_map]. rewrite app_nil_r.
    replace (w ++ (quote k ++ lit ": " ++ u) ++ e) with (w ++ quote k ++ [] ++ [58%N] ++ ([32%N] ++ u ++ e)) by (rewrite <- !app_assoc; reflexivity).
    apply members_one; [exact Hw|exact B0|apply quote_is|apply says_blank; assumption].
  - replace (w ++ concat_with ([44%N] ++ sp) ((quote k ++ lit ": " ++ u) :: t2 :: items) ++ e)
      with (w ++ quote k ++ [] ++ [58%N] ++ ([32%N] ++ u ++ []) ++ [44%N] ++ (sp ++ concat_with ([44%N] ++ sp) (t2 :: items) ++ e))
      by (cbn [concat_with flat_map]; rewrite app_nil_r, <- !app_assoc; reflexivity).
    apply members_more; [exact Hw|exact B0|apply quote_is|apply says_blank; assumption|]. apply IH; [discriminate|exact Hs].
Qed.
Lemma object_is indent level items kvs : Forall2 pair_says items kvs -> says (container indent level 123 125 items) (JObj kvs).
Proof.
  intros F. destruct F as [|t v items vs S F]; [exact (says_empty_object [] (fun c (H : In c []) => match H with end))|]. unfold container.
  destruct (comma_is indent (Datatypes.S level)) as (sp & Hs & ->).
  replace ([123%N] ++ new_line indent (Datatypes.S level) ++ concat_with ([44%N] ++ sp) (t :: items) ++ new_line indent level ++ [125%N])
    with ([123%N] ++ (new_line indent (Datatypes.S level) ++ concat_with ([44%N] ++ sp) (t :: items) ++ new_line indent level) ++ [125%N])
    by (rewrite <- !app_assoc; reflexivity).
  apply says_object, members_are; [apply new_line_blank|exact Hs|constructor; assumption|discriminate|apply new_line_blank].
Qed.

Lemma dumps_says indent v : forall level, finite v -> says (dumps indent level v) (holds v).
Proof.
  induction v as [|b|z|t|s|l IH|d IH|v raw a b n IH|n t] using pyv_all; intros level Fi; cbn [dumps holds].
  - constructor.
  - destruct b; constructor.
  - apply int_is.
  - apply says_float, Fi.
  - apply says_string, quote_is.
  - apply list_is. cbn [finite] in Fi. clear - IH Fi. induction IH as [|x l H _ IH]; [constructor|]. destruct Fi as [F1 F2].
    cbn [map]. constructor; [exact (H _ F1)|exact (IH F2)].
  - apply object_is. cbn [finite] in Fi. clear - IH Fi. induction IH as [|x l H _ IH]; [constructor|]. destruct Fi as [F1 F2].
    cbn [map]. constructor; [|exact (IH F2)]. exists (dumps indent (Datatypes.S level) (snd x)). split; [reflexivity|exact (H _ F1)].
  - assert (Q : forall k u x, says u x -> pair_says (quote k ++ lit ": " ++ u) (k, x)) by (intros k u x S; exists u; split; [reflexivity|exact S]).
    specialize (IH (Datatypes.S level) Fi).
    destruct raw as [|c raw]; apply object_is; unfold match_advanced; cbn [app map fst snd];
      repeat (constructor; [apply Q; first [exact IH|apply int_is|apply says_string, quote_is]|]); constructor.
  - unfold default_text. destruct n; apply says_string, quote_is.
Qed.
(** the JSON written for a guess, on one line or on several, says what the guess holds, and nothing else *)
Theorem C103_reads indent level v d : finite v -> (says (dumps indent level v) d <-> d = holds v).
Proof. intros F. split; [intros H; exact (C103_unique _ _ _ H (dumps_says indent v level F))|intros ->; exact (dumps_says indent v level F)]. Qed.

Lemma in_container indent level o c items x : In x (container indent level o c items) ->
  x = o \/ x = c \/ In x (new_line indent (Datatypes.S level)) \/ In x (new_line indent level) \/ In x (comma indent (Datatypes.S level)) \/ exists t, In t items /\ In x t.
Proof.
  unfold container. destruct items as [|t items]; [intros [<- |[<- |[]]]; auto|]. rewrite !in_app_iff. cbn [concat_with]. rewrite in_app_iff, in_flat_map.
  intros [[<- |[]]|[H|[[H|(u & Hu & H)]|[H|[<- |[]]]]]]; auto 6.
  - do 5 right. exists t. split; [left; reflexivity|exact H].
  - apply in_app_or in H. destruct H as [H|H]; [auto 6|]. do 5 right. exists u. split; [right; exact Hu|exact H].
Qed.
Lemma num_visible c : num_char c = true -> (32 <= c)%N.
Proof. unfold num_char, is_digit. lia. Qed.
Lemma int_visible z x : In x (int_repr z) -> (32 <= x)%N.
Proof.
  assert (W : forall n, In x (str_of_N n) -> (32 <= x)%N).
  { intros n H. destruct (str_of_N_spec n) as (_ & B & _). rewrite Forall_forall in B. apply num_visible, (proj1 (Forall_forall _ _) (digits_num _ (proj2 (Forall_forall _ _) B)) x H). }
  unfold int_repr. destruct (z <? 0)%Z; [|apply W]. intros H. apply in_app_or in H. destruct H as [[<- |[]]|H]; [cbv; discriminate|exact (W _ H)].
Qed.
(** the one-line form is one line: no control character *)
Theorem C103_line v level c : finite v -> In c (dumps None level v) -> (32 <= c)%N.
Proof.
  assert (K : forall l o e items x, (32 <= o)%N -> (32 <= e)%N -> (forall t, In t items -> In x t -> (32 <= x)%N) -> In x (container None l o e items) -> (32 <= x)%N).
  { intros l o e items x Ho He Hi H. apply in_container in H. destruct H as [-> |[-> |[[]|[[]|[H|(t & Ht & H)]]]]]; auto; [|exact (Hi t Ht H)].
    cbn in H. lia. }
  assert (Q : forall k u x, (In x u -> (32 <= x)%N) -> In x (quote k ++ lit ": " ++ u) -> (32 <= x)%N).
  { intros k u x Hu H. apply in_app_or in H. destruct H as [H|H]; [exact (quote_visible k x H)|]. apply in_app_or in H. destruct H as [H|H]; [cbn in H; lia|auto]. }
  revert level. induction v as [|b|z|t|s|l IH|d IH|v raw a b n IH|n t] using pyv_all; intros level Fi; cbn [dumps].
  - intros H; cbn in H; lia.
  - destruct b; intros H; cbn in H; lia.
  - apply int_visible.
  - intros H. destruct (float_number t Fi) as (_ & F & _). rewrite Forall_forall in F. exact (num_visible c (F c H)).
  - apply quote_visible.
  - apply K; [lia|lia|]. intros t Ht. apply in_map_iff in Ht. destruct Ht as (x & <- & Hx).
    rewrite Forall_forall in IH. apply (IH x Hx). revert Hx. clear - Fi. cbn [finite] in Fi.
    induction l as [|y l IH]; [intros []|]. destruct Fi as [F1 F2]. intros [<- |H]; [exact F1|exact (IH F2 H)].
  - apply K; [lia|lia|]. intros t Ht. apply in_map_iff in Ht. destruct Ht as (x & <- & Hx). apply Q.
    rewrite Forall_forall in IH. apply (IH x Hx). revert Hx. clear - Fi. cbn [finite] in Fi.
    induction d as [|y l IH]; [intros []|]. destruct Fi as [F1 F2]. intros [<- |H]; [exact F1|exact (IH F2 H)].
  - apply K; [lia|lia|]. intros t Ht. apply in_map_iff in Ht. destruct Ht as ([k u] & <- & Hx). cbn [fst snd]. apply Q.
    unfold match_advanced in Hx. destruct raw as [|r raw]; cbn [app] in Hx.
    + destruct Hx as [E|[E|[E|[]]]]; injection E as <- <-; [exact (IH _ Fi)|apply int_visible|apply int_visible].
    + destruct Hx as [E|[E|[E|[E|[]]]]]; injection E as <- <-; [exact (IH _ Fi)|apply quote_visible|apply int_visible|apply int_visible].
  - unfold default_text. destruct n; apply quote_visible.
Qed.
(** the two forms printed: the properties in the order of the guess, each with its value *)
Theorem C103_guess guess : finite (PDict guess) -> forall text, text = json_line guess \/ text = json_lines guess ->
  forall d, says text d <-> d = JObj (map (fun kv => (fst kv, holds (snd kv))) guess).
Proof. intros F text [-> | ->] d; apply (C103_reads _ 0 (PDict guess) d F). Qed.
(** a guess with text, numbers, a language, a size, several values and a match *)
Definition guess_ex : list (str * pyv) :=
  [(lit "title", PStr (lit "Say ""Hi"" \ there" ++ [9%N; 0%N; 233%N])); (lit "season", PInt 0); (lit "episode", PList [PInt 12; PInt 130]);
   (lit "aspect_ratio", PFloat (lit "1.778")); (lit "language", PThing (Some (lit "French")) (lit "fr")); (lit "size", PThing None (lit "1.4GB"));
   (lit "other", PMatch (PStr (lit "Proper")) [] 3 3 (lit "other")); (lit "year", PMatch (PInt (-5)) (lit "-5") 3 5 (lit "year")); (lit "part", PList [])].
Example C103_nonvacuous : finite (PDict guess_ex) /\
  json_line guess_ex = lit "{""title"": ""Say \""Hi\"" \\ there\t\u0000" ++ [233%N] ++
    lit """, ""season"": 0, ""episode"": [12, 130], ""aspect_ratio"": 1.778, ""language"": ""French"", ""size"": ""1.4GB"", ""other"": {""value"": ""Proper"", ""start"": 3, ""end"": 3}, ""year"": {""value"": -5, ""raw"": ""-5"", ""start"": 3, ""end"": 5}, ""part"": []}".
Proof.
  split; [|vm_compute; reflexivity]. cbn [finite guess_ex fold_right snd]. repeat split; trivial.
  exists [], (lit "1"), (lit ".778"). split; [left; reflexivity|]. split; [split; [split; [discriminate|repeat constructor]|intros r E; injection E; congruence]|].
  split; [reflexivity|]. left. exists (lit "778"). split; [split; [discriminate|repeat constructor]|reflexivity].
Qed.
(** several lines *)
Example C103_nonvacuous_lines : exists w, json_lines [(lit "episode", PList [PInt 12; PInt 13])] = lit "{" ++ [10%N] ++ lit "    ""episode"": [" ++ [10%N] ++ lit "        12," ++ w.
Proof. eexists. vm_compute. reflexivity. Qed.
(** a text and an object of the same name are told alike *)
Theorem C103_limit : exists a b, a <> b /\ finite a /\ finite b /\ json_line [(lit "language", a)] = json_line [(lit "language", b)].
Proof. exists (PStr (lit "French")), (PThing (Some (lit "French")) (lit "fr")). split; [discriminate|]. split; [exact Logic.I|]. split; [exact Logic.I|]. reflexivity. Qed.
Print Assumptions C103_unique. Print Assumptions C103_reads. Print Assumptions C103_line. Print Assumptions C103_guess. Print Assumptions C103_limit.
