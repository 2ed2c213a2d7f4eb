(** C22: quantities *)
From Coq Require Import QArith.
From Verif Require Import Py PyFacts Text NumeralProofs Quantity QuantityProofs.

(** C22: a quantity that was parsed, with an integer magnitude and some unit, is parsed
    again from its text form. *)
Theorem C22_roundtrip : forall float_repr k s n u,
  fromstring k s = Ok (mk_q (MInt n) u) -> u <> [] ->
  fromstring k (str_of float_repr (mk_q (MInt n) u)) = Ok (mk_q (MInt n) u).
Proof. exact roundtrip. Qed.
Print Assumptions C22_roundtrip.
(** C22: normalising units twice changes nothing. *)
Theorem C22_units_idempotent : forall k v u, parse_units k v = Ok u -> parse_units k (Some u) = Ok u.
Proof. intros k v u H; exact (proj1 (units_idem k v u H)). Qed.
Print Assumptions C22_units_idempotent.
Example ex_quantity : fromstring BitRate (lit "320 kbits") = Ok (mk_q (MInt 320) (lit "Kbps"))
  /\ fromstring Size (lit "1.5.gb") = Ok (mk_q (MFloat (15 # 10)%Q) (lit "GB")).
Proof. split; reflexivity. Qed.
(** C22, limit: without unit the text form cannot be parsed. *)
Theorem C22_no_unit_refuted : forall float_repr, exists s q,
  fromstring Size s = Ok q /\ fromstring Size (str_of float_repr q) = Err AttributeError.
Proof. intros fr. exists (lit "300 "), (mk_q (MInt 300) []). split; reflexivity. Qed.
Print Assumptions C22_no_unit_refuted.
(** C22, limit: two equal quantities with different text, hence (for any hash without
    collision) different hashes. *)
Theorem C22_equal_but_different_hash_refuted : forall float_repr, float_repr (10 # 10)%Q = lit "1.0" ->
  exists a b, fromstring Size (lit "1GB") = Ok a /\ fromstring Size (lit "1.0GB") = Ok b /\ q_eq a b = true /\
  forall H (hash : str -> H), (forall x y, hash x = hash y -> x = y) -> hash_of float_repr hash a <> hash_of float_repr hash b.
Proof.
  intros fr Hfr. exists (mk_q (MInt 1) (lit "GB")), (mk_q (MFloat (10 # 10)%Q) (lit "GB")).
  split; [reflexivity|]. split; [reflexivity|]. split; [reflexivity|].
  intros H hash Hinj E. apply Hinj in E. unfold str_of in E; cbn [q_magnitude q_units] in E. rewrite Hfr in E. discriminate.
Qed.
Print Assumptions C22_equal_but_different_hash_refuted.
(** C22: what the magnitude of a parsed text is: the decimal value of the digits written. *)
Theorem C22_magnitude : forall k d u x, d <> [] -> Forall (fun c => is_digit c = true) d ->
  u <> [] -> Forall (fun c => is_digit c = false) u -> parse_units k (Some u) = Ok x ->
  fromstring k (d ++ u) = Ok (mk_q (MInt (Z.to_N (decimal d))) x) /\
  forall e, e <> [] -> Forall (fun c => is_digit c = true) e ->
  fromstring k (d ++ lit "." ++ e ++ u) = Ok (mk_q (MFloat (decimal (d ++ e) # (Pos.pow 10 (Pos.of_nat (List.length e))))%Q) x).
Proof.
  intros k d u x H1 H2 H3 H4 H5. split; [rewrite fromstring_int by assumption; rewrite H5; reflexivity|].
  intros e H6 H7. change (lit "." ++ e ++ u) with (46%N :: e ++ u). rewrite fromstring_frac by assumption. rewrite H5. reflexivity.
Qed.
Print Assumptions C22_magnitude.
(** C22: two quantities are equal exactly when the magnitudes are equal numbers and the units are the same. *)
Definition number_of (m : magnitude) : Q := match m with MInt n => (Z.of_N n # 1)%Q | MFloat x => x end.
Theorem C22_equality : forall a b, q_eq a b = true <-> (number_of (q_magnitude a) == number_of (q_magnitude b))%Q /\ q_units a = q_units b.
Proof.
  intros a b. unfold q_eq, mag_eq. rewrite Bool.andb_true_iff, Qeq_bool_iff, str_eqb_eq. reflexivity.
Qed.
Print Assumptions C22_equality.
Example ex_q_eq : q_eq (mk_q (MInt 1) (lit "GB")) (mk_q (MFloat (10 # 10)%Q) (lit "GB")) = true /\ q_eq (mk_q (MInt 1) (lit "GB")) (mk_q (MInt 1) (lit "MB")) = false.
Proof. split; reflexivity. Qed.
