(** C15 (Fractions are exact and in lowest terms), C41 (integral results are Integers),
    C42 (rounding of Fractions). *)
From Coq Require Import Qround.
From Verif Require Import Base IntMath Fraction FractionSpec FractionProofs FractionOrder.

Theorem C15_plus : forall a b, wf a -> wf b -> yields (rat_plus 1 a b) (rval a + rval b)%Q.
Proof. exact rat_plus_spec. Qed.
Print Assumptions C15_plus.

Theorem C15_minus : forall a b, wf a -> wf b -> yields (rat_plus (-1) a b) (rval a - rval b)%Q.
Proof. exact rat_minus_spec. Qed.
Print Assumptions C15_minus.

(** [same] tells whether the operands are the same object. *)
Theorem C15_times : forall same a b, wf a -> wf b -> (same = true -> a = b) ->
  yields (rat_times same a b) (rval a * rval b)%Q.
Proof. exact rat_times_ok. Qed.
Print Assumptions C15_times.

Theorem C15_divide : forall a b, wf a -> wf b -> ~ (rval b == 0)%Q -> yields (rat_divide a b) (rval a / rval b)%Q.
Proof. exact rat_divide_ok. Qed.
Print Assumptions C15_divide.

Theorem C15_divide_by_zero : forall a b, wf a -> wf b -> (rval b == 0)%Q -> rat_divide a b = Err.
Proof. exact rat_divide_zero. Qed.
Print Assumptions C15_divide_by_zero.

Theorem C15_negated : forall a, wf a -> yields (rat_negated a) (- rval a)%Q.
Proof. exact rat_negated_ok. Qed.
Print Assumptions C15_negated.

Theorem C15_reciprocal : forall n d, wf (RFrac n d) -> n <> 0 -> yields (frac_reciprocal n d) (/ rval (RFrac n d))%Q.
Proof. exact frac_reciprocal_ok. Qed.
Print Assumptions C15_reciprocal.

Theorem C15_power : forall n d e, wf (RFrac n d) -> 0 <= e -> yields (frac_power n d e) (rval (RFrac n d) ^ e)%Q.
Proof. exact frac_power_ok. Qed.
Print Assumptions C15_power.

Theorem C15_squared : forall n d, wf (RFrac n d) -> yields (frac_squared n d) (rval (RFrac n d) * rval (RFrac n d))%Q.
Proof. exact frac_squared_ok. Qed.
Print Assumptions C15_squared.

Theorem C15_compare : forall a b, wf a -> wf b ->
  (exists r, rat_rel Z.ltb a b = Ok r /\ (r = true <-> (rval a < rval b)%Q)) /\
  (exists r, rat_rel Z.leb a b = Ok r /\ (r = true <-> (rval a <= rval b)%Q)) /\
  (exists r, rat_rel Z.gtb a b = Ok r /\ (r = true <-> (rval b < rval a)%Q)) /\
  (exists r, rat_rel Z.geb a b = Ok r /\ (r = true <-> (rval b <= rval a)%Q)) /\
  (rat_eq a b = true <-> (rval a == rval b)%Q).
Proof. exact rat_compare_all. Qed.
Print Assumptions C15_compare.

Example C15_example :
  wf (RFrac (-5) 6) /\ wf (RFrac 7 10) /\ wf (RInt 3) /\ ~ (rval (RFrac 7 10) == 0)%Q /\
  rat_plus 1 (RFrac (-5) 6) (RFrac 7 10) = Ok (RFrac (-2) 15) /\
  rat_plus (-1) (RFrac 1 6) (RFrac 7 6) = Ok (RInt (-1)) /\
  rat_times true (RFrac (-5) 6) (RFrac (-5) 6) = Ok (RFrac 25 36) /\
  rat_times false (RFrac (-5) 6) (RFrac 3 10) = Ok (RFrac (-1) 4) /\
  rat_divide (RFrac (-5) 6) (RFrac (-7) 10) = Ok (RFrac 25 21) /\
  rat_divide (RInt (2 ^ 64)) (RInt (- 6)) = Ok (RFrac (- 2 ^ 63) 3) /\
  frac_reciprocal (-5) 6 = Ok (RFrac (-6) 5) /\ frac_power (-5) 6 3 = Ok (RFrac (-125) 216) /\
  rat_rel Z.ltb (RFrac (-5) 6) (RFrac (-4) 5) = Ok true /\ rat_rel Z.geb (RInt 3) (RFrac 7 2) = Ok false.
Proof. vm_compute. intuition discriminate. Qed.

(** An integral quotient, product or reciprocal may be a Fraction of denominator 1. *)
Theorem C41_integral_result_refuted :
  (exists a b, rat_divide (RInt a) (RInt b) = Ok (RFrac 1 1)) /\
  (exists a b, rat_divide (RInt a) (RInt b) = Ok (RFrac (- 2 ^ 69) 1) /\ a = 2 ^ 70 /\ b = -2) /\
  rat_times false (RInt 0) (RFrac 1 2) = Ok (RFrac 0 1) /\
  rat_divide (RFrac 1 2) (RFrac (-1) 2) = Ok (RFrac (-1) 1) /\
  frac_reciprocal 1 3 = Ok (RFrac 3 1).
Proof. exact integral_refuted. Qed.
Print Assumptions C41_integral_result_refuted.

Theorem C41_sum_partial : forall s a b, reduced a -> reduced b -> s = 1 \/ s = -1 ->
  exists r, rat_plus s a b = Ok r /\ reduced r /\ (rval r == rval a + inject_Z s * rval b)%Q.
Proof. exact rat_plus_reduced. Qed.
Print Assumptions C41_sum_partial.

Theorem C41_small_quotient_partial : forall a b, is_small a = true -> is_small b = true -> b <> 0 ->
  exists r, rat_divide (RInt a) (RInt b) = Ok r /\ reduced r /\ (rval r == inject_Z a / inject_Z b)%Q.
Proof. exact small_divide_reduced. Qed.
Print Assumptions C41_small_quotient_partial.

Example C41_example : reduced (RFrac 1 6) /\ reduced (RFrac 5 6) /\
  rat_plus 1 (RFrac 1 6) (RFrac 5 6) = Ok (RInt 1) /\ rat_divide (RInt (- 2 ^ 62)) (RInt (-1)) = Ok (RInt (2 ^ 62)).
Proof. vm_compute. intuition discriminate. Qed.

Theorem C42_floor : forall a, wf a -> rat_floor a = Qfloor (rval a).
Proof. exact rat_floor_ok. Qed.
Print Assumptions C42_floor.

Theorem C42_truncated : forall a, wf a ->
  rat_truncated a = if Qle_bool 0 (rval a) then Qfloor (rval a) else Qceiling (rval a).
Proof. exact rat_truncated_ok. Qed.
Print Assumptions C42_truncated.

Theorem C42_ceiling_refuted : exists n d, wf (RFrac n d) /\ (inject_Z (rat_ceiling (RFrac n d)) < rval (RFrac n d))%Q.
Proof. exact rat_ceiling_refuted. Qed.
Print Assumptions C42_ceiling_refuted.

(** Missing: denominators that are LargeIntegers. *)
Theorem C42_ceiling_partial : forall a, wf a -> (forall n d, a = RFrac n d -> is_small d = true) ->
  rat_ceiling a = Qceiling (rval a).
Proof. exact rat_ceiling_ok. Qed.
Print Assumptions C42_ceiling_partial.

Theorem C42_rounded_refuted : exists n d, wf (RFrac n d) /\ exists z, rat_rounded (RFrac n d) = Ok z /\
  (rval (RFrac n d) - inject_Z z > 1 # 2)%Q.
Proof. exact rat_rounded_refuted. Qed.
Print Assumptions C42_rounded_refuted.

Theorem C42_rounded_positive : forall n d, wf (RFrac n d) -> 0 <= n -> exists z,
  rat_rounded (RFrac n d) = Ok z /\ (inject_Z z - (1 # 2) <= rval (RFrac n d) < inject_Z z + (1 # 2))%Q.
Proof. exact rounded_pos_spec. Qed.
Print Assumptions C42_rounded_positive.

(** Missing: negative receivers whose denominator is 2^61 or more. *)
Theorem C42_rounded_negative_partial : forall n d, wf (RFrac n d) -> n < 0 -> is_small (2 * d) = true -> exists z,
  rat_rounded (RFrac n d) = Ok z /\ (inject_Z z - (1 # 2) < rval (RFrac n d) <= inject_Z z + (1 # 2))%Q.
Proof. exact rounded_neg_spec. Qed.
Print Assumptions C42_rounded_negative_partial.

Theorem C42_floored_division : forall a b, wf a -> wf b -> ~ (rval b == 0)%Q ->
  frac_intdiv a b = Ok (Qfloor (rval a / rval b)).
Proof. exact frac_intdiv_ok. Qed.
Print Assumptions C42_floored_division.

Theorem C42_modulo : forall a b, wf a -> wf b -> ~ (rval b == 0)%Q ->
  yields (frac_modulo a b) (rval a - inject_Z (Qfloor (rval a / rval b)) * rval b)%Q.
Proof. exact frac_modulo_ok. Qed.
Print Assumptions C42_modulo.

Example C42_example : wf (RFrac (-7) 2) /\ is_small (2 * 2) = true /\
  rat_floor (RFrac (-7) 2) = -4 /\ rat_ceiling (RFrac (-7) 2) = -3 /\ rat_truncated (RFrac (-7) 2) = -3 /\
  rat_rounded (RFrac (-7) 2) = Ok (-4) /\ rat_rounded (RFrac 7 2) = Ok 4 /\
  frac_intdiv (RFrac (-7) 2) (RFrac 2 3) = Ok (-6) /\ frac_modulo (RFrac (-7) 2) (RFrac 2 3) = Ok (RFrac 1 2).
Proof. vm_compute. intuition discriminate. Qed.
