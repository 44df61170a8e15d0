(** C08, C09 and the primitive of C10: LargeInteger arithmetic. *)
From Verif Require Import Base Digits IntRep IntRepProofs Mpz MpzSpec MpzProofs MpzPrims MpzFindings.

(** Whatever a LargeInteger primitive answers is canonical. *)
Theorem C08_results_canonical : forall a b pa pb o i,
  int_arg a -> pad_of a pa -> int_arg b -> pad_of b pb ->
  In o [prim_plus a b pa pb; prim_minus a b pa pb; prim_times a b pa pb; prim_bitAnd a b pa pb;
   prim_bitOr a b pa pb; prim_bitXor a b pa pb; prim_intDiv a b pa pb; prim_modulo a b pa pb;
   prim_quo a b pa pb; prim_rem a b pa pb; prim_divExact a b pa pb; prim_negated a pa;
   prim_bitInvert a pa; prim_bitShift a b pa; prim_gcd a b pa pb] ->
  o = Ok i -> canonical i.
Proof. exact results_canonical. Qed.
Print Assumptions C08_results_canonical.

(** Every integer has exactly one canonical object. *)
Theorem C08_canonical_unique : forall a b, canonical a -> canonical b -> st_val a = st_val b -> a = b.
Proof. exact canonical_unique. Qed.
Print Assumptions C08_canonical_unique.

Theorem C08_canonical_exists : forall z, exists i, canonical i /\ st_val i = z.
Proof. exact exists_int. Qed.
Print Assumptions C08_canonical_exists.

(** Canonical Integers are among the operands the theorems below speak of. *)
Theorem C08_canonical_operand : forall i, canonical i -> int_arg i.
Proof. exact canonical_arg. Qed.
Print Assumptions C08_canonical_operand.

Theorem C09_sum_difference_product : forall a b pa pb,
  int_arg a -> pad_of a pa -> int_arg b -> pad_of b pb ->
  answers (prim_plus a b pa pb) (st_val a + st_val b) /\
  answers (prim_minus a b pa pb) (st_val a - st_val b) /\
  answers (prim_times a b pa pb) (st_val a * st_val b).
Proof. exact ring_l. Qed.
Print Assumptions C09_sum_difference_product.

Theorem C09_bit_operations : forall a b pa pb,
  int_arg a -> pad_of a pa -> int_arg b -> pad_of b pb ->
  answers (prim_bitAnd a b pa pb) (Z.land (st_val a) (st_val b)) /\
  answers (prim_bitOr a b pa pb) (Z.lor (st_val a) (st_val b)) /\
  answers (prim_bitXor a b pa pb) (Z.lxor (st_val a) (st_val b)) /\
  answers (prim_bitInvert a pa) (Z.lnot (st_val a)).
Proof. exact bits_l. Qed.
Print Assumptions C09_bit_operations.

Theorem C09_negated : forall a pa, int_arg a -> pad_of a pa -> answers (prim_negated a pa) (- st_val a).
Proof. exact negated_exact. Qed.
Print Assumptions C09_negated.

(** The primitives answer by the sign of the comparison: see _gst_mpz_cmp. *)
Theorem C09_comparisons : forall a b pa pb,
  int_arg a -> pad_of a pa -> int_arg b -> pad_of b pb ->
  prim_cmp a b pa pb = Ok (Z.sgn (st_val a - st_val b)).
Proof. exact cmp_exact. Qed.
Print Assumptions C09_comparisons.

Theorem C09_truncated_division : forall a b pa pb,
  int_arg a -> pad_of a pa -> int_arg b -> pad_of b pb -> st_val b <> 0 ->
  answers (prim_quo a b pa pb) (Z.quot (st_val a) (st_val b)) /\
  answers (prim_rem a b pa pb) (Z.rem (st_val a) (st_val b)) /\
  ((st_val b | st_val a) -> answers (prim_divExact a b pa pb) (st_val a / st_val b)).
Proof. exact tdiv_l. Qed.
Print Assumptions C09_truncated_division.

(** // and \\ are right unless the divisor is a LargeInteger, it divides the
    receiver, and the signs differ. *)
Theorem C09_floored_division : forall a b pa pb,
  int_arg a -> pad_of a pa -> int_arg b -> pad_of b pb -> st_val b <> 0 ->
  ~ (is_large b /\ (st_val b | st_val a) /\ (st_val a < 0 <-> 0 < st_val b)) ->
  answers (prim_intDiv a b pa pb) (st_val a / st_val b) /\
  answers (prim_modulo a b pa pb) (st_val a mod st_val b).
Proof. exact fdiv_l. Qed.
Print Assumptions C09_floored_division.

(** In that one case, // is one less and \\ answers the divisor instead of 0. *)
Theorem C09_floored_division_refuted :
  exists a b, canonical a /\ canonical b /\ st_val b <> 0 /\
    (forall pa pb, pad_of a pa -> pad_of b pb ->
      answers (prim_intDiv a b pa pb) (st_val a / st_val b - 1) /\
      answers (prim_modulo a b pa pb) (st_val b) /\ st_val a mod st_val b = 0).
Proof. exact fdiv_refuted_l. Qed.
Print Assumptions C09_floored_division_refuted.

Theorem C09_shift : forall a c pa, int_arg a -> pad_of a pa -> - 2 ^ 31 < c < 2 ^ 31 ->
  (0 <= st_val a \/ 0 <= c \/ (2 ^ - c | st_val a)) ->
  answers (prim_bitShift a (Small c) pa) (Z.shiftl (st_val a) c).
Proof. exact bitShift_exact. Qed.
Print Assumptions C09_shift.

(** Negative LargeIntegers are shifted right towards zero, not towards minus
    infinity; counts are reduced modulo 2^32; a count of -2^31 is undefined. *)
Theorem C09_shift_refuted :
  (exists a c, canonical a /\ - 2 ^ 31 < c < 0 /\
    forall pa, pad_of a pa -> exists z, answers (prim_bitShift a (Small c) pa) z /\ z <> Z.shiftl (st_val a) c) /\
  (exists a c, canonical a /\ c = - 2 ^ 32 /\
    forall pa, pad_of a pa -> exists z, answers (prim_bitShift a (Small c) pa) z /\ z <> Z.shiftl (st_val a) c) /\
  (exists a, canonical a /\ forall pa, pad_of a pa -> prim_bitShift a (Small (- 2 ^ 31)) pa = UB).
Proof. exact shift_refuted_l. Qed.
Print Assumptions C09_shift_refuted.

Theorem C10_large_gcd : forall a b pa pb,
  int_arg a -> pad_of a pa -> int_arg b -> pad_of b pb -> st_val a <> 0 -> st_val b <> 0 ->
  answers (prim_gcd a b pa pb) (Z.gcd (st_val a) (st_val b)).
Proof. exact gcd_exact. Qed.
Print Assumptions C10_large_gcd.

(** With a zero operand the other is answered, even if it is negative. *)
Theorem C10_large_gcd_refuted :
  exists a b, canonical a /\ canonical b /\
    forall pa pb, pad_of a pa -> pad_of b pb ->
      answers (prim_gcd a b pa pb) (st_val a) /\ st_val a < 0.
Proof. exact gcd_refuted_l. Qed.
Print Assumptions C10_large_gcd_refuted.

Theorem C10_large_gcd_zero : forall a b pa pb,
  int_arg a -> pad_of a pa -> int_arg b -> pad_of b pb -> st_val a = 0 \/ st_val b = 0 ->
  answers (prim_gcd a b pa pb) (st_val a + st_val b).
Proof. exact gcd_zero. Qed.
Print Assumptions C10_large_gcd_zero.

(** - 2^64 - 3 and 2^70: 9-byte objects, with 7 unused bytes each. *)
Definition ex_a : stint := Large true [253; 255; 255; 255; 255; 255; 255; 255; 254].
Definition ex_b : stint := Large false [0; 0; 0; 0; 0; 0; 0; 0; 64].
Definition ex_pad : list Z := [1; 2; 3; 4; 5; 6; 255].

Example mpz_hypotheses : canonical ex_a /\ canonical ex_b /\ int_arg ex_a /\ int_arg ex_b /\
  pad_of ex_a ex_pad /\ pad_of ex_b ex_pad /\
  st_val ex_a = - 2 ^ 64 - 3 /\ st_val ex_b = 2 ^ 70 /\
  ~ (is_large ex_b /\ (st_val ex_b | st_val ex_a) /\ (st_val ex_a < 0 <-> 0 < st_val ex_b)).
Proof. exact mpz_hyps. Qed.

Example mpz_computes :
  prim_intDiv ex_a ex_b ex_pad ex_pad = Ok (Small (-1)) /\
  prim_times ex_a (Small 0) ex_pad [] = Ok (Small 0) /\
  prim_gcd ex_b (Small 24) ex_pad [] = Ok (Small 8) /\
  prim_bitShift ex_b (Small (-70)) ex_pad = Ok (Small 1).
Proof. vm_compute. repeat split. Qed.
