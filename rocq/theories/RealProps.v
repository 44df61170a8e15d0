(** Theorems about Float literals (C123). *)
From Coq Require Import Reals Lra ZifyBool.
From Flocq Require Import Core.
From Verif Require Import Base Digits Real RealSpec RealWords RealApprox RealTop RealExamples.
Open Scope R_scope.

(** Every literal (of at most 65536 digits and an exponent of at most 65536)
    is read, and the Float is off by half a unit in the last place and a
    little.  The full statement would be the one of C123_nearest_partial without
    the hypothesis on midpoints. *)
Theorem C123_error_partial : forall k base ints fracs ex,
  literal_ok base ints fracs -> exponent_ok ex -> bounded ints fracs ex ->
  let q := written base ints fracs ex in
  exists x, float_literal k base ints fracs ex = Ok x /\ Rabs (scaled x - q) <= q * tolerance k.
Proof. exact literal_error. Qed.
Print Assumptions C123_error_partial.

(** Unless the number written is very close to the middle of two neighbouring
    Floats, the literal is the nearest one. *)
Theorem C123_nearest_partial : forall k base ints fracs ex,
  literal_ok base ints fracs -> exponent_ok ex -> bounded ints fracs ex ->
  let q := written base ints fracs ex in
  (forall y, midpoint (bits k) y -> q * margin k < Rabs (q - y)) ->
  exists x, float_literal k base ints fracs ex = Ok x /\ scaled x = nearest (bits k) q.
Proof. exact literal_nearest. Qed.
Print Assumptions C123_nearest_partial.

(** A number that is a Float is read as that Float. *)
Theorem C123_exact : forall k base ints fracs ex,
  literal_ok base ints fracs -> exponent_ok ex -> bounded ints fracs ex ->
  let q := written base ints fracs ex in
  generic_format radix2 (FLX_exp (bits k)) q ->
  exists x, float_literal k base ints fracs ex = Ok x /\ scaled x = q.
Proof. exact literal_exact. Qed.
Print Assumptions C123_exact.

(** [12.5e-1] meets the hypotheses: 1.25 is a Float of every kind, and no
    midpoint is near it *)
Example C123_sample :
  literal_ok 10 [1; 2]%Z [5]%Z /\ exponent_ok (Some (true, [1]%Z)) /\ bounded [1; 2]%Z [5]%Z (Some (true, [1]%Z))
  /\ written 10 [1; 2]%Z [5]%Z (Some (true, [1]%Z)) = 5 / 4
  /\ generic_format radix2 (FLX_exp 53) (5 / 4)
  /\ (forall y, midpoint 53 y -> 5 / 4 * margin FloatD < Rabs (5 / 4 - y))
  /\ float_literal FloatD 10 [1; 2]%Z [5]%Z (Some (true, [1]%Z)) = Ok (5 * 2 ^ 157, -159)%Z.
Proof. exact sample_literal. Qed.

(** The operations on words: shifts, sums, differences and comparisons of
    significands are those of the numbers written by the words. *)
Theorem C123_words : forall r s, length r = SIGSZ -> length s = SIGSZ -> digits_ok ELEM r -> digits_ok ELEM s ->
  (forall delta, (0 <= delta < 160)%Z -> dval ELEM (rshift_sig r delta) = (dval ELEM r / 2 ^ delta)%Z)
  /\ (let (t, c) := add_sig_words r s 0 in
      dval ELEM t + 2 ^ 160 * c = dval ELEM r + dval ELEM s /\ 0 <= c <= 1)%Z
  /\ (dval ELEM (sub_sig_words r s 0) = (dval ELEM r - dval ELEM s) mod 2 ^ 160)%Z
  /\ (Z.sgn (cmp_significands r s) = Z.sgn (dval ELEM r - dval ELEM s))%Z
  /\ (dval ELEM (lshl1 0 r) = (2 * dval ELEM r) mod 2 ^ 160)%Z.
Proof. exact words_ok. Qed.
Print Assumptions C123_words.

(** ten words to shift and add *)
Example C123_words_sample :
  let r := [1; 2; 3; 4; 5; 6; 7; 8; 9; 32768]%Z in
  length r = SIGSZ /\ digits_ok ELEM r
  /\ rshift_sig r 17 = [32769; 1; 32770; 2; 32771; 3; 32772; 4; 16384; 0]%Z
  /\ add_sig_words r r 0 = ([2; 4; 6; 8; 10; 12; 14; 16; 18; 0]%Z, 1%Z).
Proof. exact sample_words. Qed.

(** 1.00000000000000011102230246251565404236316680908203126 is more than
    1 + 2^-53 and should be 1 + 2^-52; it is rounded to a long double first,
    which is half way between two FloatDs, and becomes 1. *)
Theorem C123_double_rounding_refuted :
  exists fracs x, literal_ok 10 [1]%Z fracs /\ bounded [1]%Z fracs None
    /\ float_literal FloatD 10 [1]%Z fracs None = Ok x
    /\ scaled x <> nearest 53 (written 10 [1]%Z fracs None).
Proof. exact double_rounding. Qed.
Print Assumptions C123_double_rounding_refuted.

(** And the long double is not the nearest one itself, since its words are added
    one at a time: 1 + 2^-64 + 10^-30. *)
Theorem C123_long_double_refuted :
  exists fracs x, literal_ok 10 [1]%Z fracs /\ bounded [1]%Z fracs None
    /\ float_literal FloatQ 10 [1]%Z fracs None = Ok x
    /\ scaled x <> nearest 64 (written 10 [1]%Z fracs None).
Proof. exact long_double. Qed.
Print Assumptions C123_long_double_refuted.

(** 1e4294967297 is read as 1e1: the exponent is truncated to an int. *)
Theorem C123_exponent_refuted :
  exists ds x, exponent_ok (Some (false, ds)) /\ exponent (Some (false, ds)) = 4294967297%Z
    /\ float_literal FloatE 10 [1]%Z [] (Some (false, ds)) = Ok x /\ scaled x = 10
    /\ 10 ^ 100 < written 10 [1]%Z [] (Some (false, ds)).
Proof. exact truncated_exponent. Qed.
Print Assumptions C123_exponent_refuted.

(** 16r1e536870912: the exponent of the struct real overflows an int. *)
Theorem C123_overflow_refuted :
  exists ds, literal_ok 16 [1]%Z [] /\ exponent_ok (Some (false, ds))
    /\ exponent (Some (false, ds)) = 536870912%Z
    /\ float_literal FloatD 16 [1]%Z [] (Some (false, ds)) = UB.
Proof. exact overflowing_exponent. Qed.
Print Assumptions C123_overflow_refuted.
