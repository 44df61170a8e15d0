(** Theorems about ScaledDecimals (C119, C120, C121, C122). *)
From Coq Require Import ZArith QArith Qround Qabs List Lia ZifyBool.
From Verif Require Import Base Fraction FractionSpec IntPrintSpec LexSpec ScaledD ScaledDSpec ScaledDProofs ScaledDText.
Import ListNotations.
Open Scope Z_scope.

(** * C119: arithmetic is exact *)

(** Missing from the full statement: //, and operations between a ScaledDecimal and
    a Fraction. *)
Theorem C119_arithmetic_partial : forall x y, sd_wf x -> sd_wf y ->
  let larger := Z.max (scale x) (scale y) in
  exactly (sd_plus 1 x y) (value x + value y) larger
  /\ exactly (sd_plus (-1) x y) (value x - value y) larger
  /\ exactly (sd_times false x y) (value x * value y) larger
  /\ exactly (sd_times true x x) (value x * value x) (scale x)
  /\ exactly (sd_negated x) (- value x) (scale x)
  /\ (~ (value y == 0)%Q -> exactly (sd_divide x y) (value x / value y) larger
       /\ exactly (sd_modulo x y) (value x - inject_Z (Qfloor (value x / value y)) * value y) larger)
  /\ ((value y == 0)%Q -> sd_divide x y = Err).
Proof.
  intros x y X Y larger.
  split; [exact (plus_exact x y X Y)|]. split; [exact (minus_exact x y X Y)|].
  split; [exact (times_exact false x y X Y ltac:(discriminate))|].
  split. { pose proof (times_exact true x x X X (fun _ => eq_refl)) as E. rewrite Z.max_id in E. exact E. }
  split; [exact (negated_exact x X)|].
  split; [intros N; split; [exact (divide_exact x y X Y N)|exact (modulo_exact x y X Y N)]|exact (divide_zero x y X Y)].
Qed.
Print Assumptions C119_arithmetic_partial.

(** a third at scale 2, and a tenth *)
Example C119_third : sd_wf (SD 1 3 2) /\ sd_wf (SD 1 10 1) /\ ~ (value (SD 1 10 1) == 0)%Q
  /\ sd_plus 1 (SD 1 3 2) (SD 1 10 1) = Ok (SD 13 30 2) /\ sd_divide (SD 1 3 2) (SD 1 10 1) = Ok (SD 10 3 2)
  /\ sd_times true (SD 1 3 2) (SD 1 3 2) = Ok (SD 1 9 2).
Proof. repeat split; vm_compute; congruence. Qed.

(** 100s2 // (1/3 asScaledDecimal: 2) is 303 *)
Theorem C119_floored_division_refuted : exists x y q, sd_wf x /\ sd_wf y /\ ~ (value y == 0)%Q
  /\ sd_intdiv x y = Ok q /\ q <> Qfloor (value x / value y).
Proof. exists (SD 100 1 2), (SD 1 3 2), 303. repeat split; vm_compute; congruence. Qed.
Print Assumptions C119_floored_division_refuted.

(** 1s2 // (1/200 asScaledDecimal: 2) divides by zero *)
Theorem C119_division_by_nonzero_refuted : exists x y, sd_wf x /\ sd_wf y /\ ~ (value y == 0)%Q
  /\ sd_intdiv x y = Err.
Proof. exists (SD 1 1 2), (SD 1 200 2). repeat split; vm_compute; congruence. Qed.
Print Assumptions C119_division_by_nonzero_refuted.

(** (1/3 asScaledDecimal: 2) - (1/3) is -1/300 *)
Theorem C119_fraction_refuted : exists x f r, sd_wf x /\ wf f /\ sd_plus_fraction (-1) x f = Ok r
  /\ (value x == rval f)%Q /\ ~ (rval r == 0)%Q.
Proof. exists (SD 1 3 2), (RFrac 1 3), (RFrac (-1) 300). repeat split; vm_compute; congruence. Qed.
Print Assumptions C119_fraction_refuted.

(** * C120: comparison *)

(** Missing: numbers with different scales, or with digits that the scale does not
    count. *)
Theorem C120_comparison_partial : forall x y m n, sd_wf x -> sd_wf y ->
  scale x = scale y -> units x m -> units y n ->
  (exists b, sd_rel Z.eqb x y = Ok b /\ (b = true <-> (value x == value y)%Q))
  /\ (exists b, sd_rel Z.ltb x y = Ok b /\ (b = true <-> (value x < value y)%Q))
  /\ (exists b, sd_rel Z.leb x y = Ok b /\ (b = true <-> (value x <= value y)%Q))
  /\ (exists b, sd_rel Z.gtb x y = Ok b /\ (b = true <-> (value y < value x)%Q))
  /\ (exists b, sd_rel Z.geb x y = Ok b /\ (b = true <-> (value y <= value x)%Q)).
Proof. exact comparison_units. Qed.
Print Assumptions C120_comparison_partial.

Example C120_prices : sd_wf (SD 5 4 2) /\ sd_wf (SD (-1) 100 2) /\ units (SD 5 4 2) 125 /\ units (SD (-1) 100 2) (-1)
  /\ sd_rel Z.ltb (SD (-1) 100 2) (SD 5 4 2) = Ok true.
Proof. repeat split; vm_compute; congruence. Qed.

(** What the messages say in general, while denominators are small: two numbers
    count as equal when they differ by less than half a unit of the last digit that
    both have. *)
Theorem C120_tolerance : forall x y, sd_wf x -> sd_wf y -> 2 * (den x * den y) < 2 ^ 62 ->
  let gap := ((value x - value y) * inject_Z (10 ^ Z.min (scale x) (scale y)))%Q in
  exists c, sd_compare x y = Ok c /\ (c < 0 <-> (gap <= - (1 # 2))%Q) /\ (0 < c <-> ((1 # 2) <= gap)%Q).
Proof. exact compare_general. Qed.
Print Assumptions C120_tolerance.

Example C120_tolerance_case : sd_wf (SD 3 2 1) /\ sd_wf (SD 77 50 2) /\ 2 * (den (SD 3 2 1) * den (SD 77 50 2)) < 2 ^ 62
  /\ sd_compare (SD 3 2 1) (SD 77 50 2) = Ok 0.
Proof. repeat split; vm_compute; congruence. Qed.

(** 1.54s2 = 1.5s1 and 1.5s1 = 1.46s2, but 1.46s2 < 1.54s2 *)
Theorem C120_transitivity_refuted : exists x y z, sd_wf x /\ sd_wf y /\ sd_wf z
  /\ (exists m, units x m) /\ (exists m, units y m) /\ (exists m, units z m)
  /\ sd_eq x y = Ok true /\ sd_eq y z = Ok true /\ sd_eq x z = Ok false /\ sd_rel Z.ltb z x = Ok true.
Proof.
  exists (SD 77 50 2), (SD 3 2 1), (SD 73 50 2).
  split; [repeat split; vm_compute; congruence|]. split; [repeat split; vm_compute; congruence|].
  split; [repeat split; vm_compute; congruence|]. split; [exists 154; vm_compute; reflexivity|].
  split; [exists 15; vm_compute; reflexivity|]. split; [exists 146; vm_compute; reflexivity|].
  split; [vm_compute; reflexivity|]. split; [vm_compute; reflexivity|]. split; vm_compute; reflexivity.
Qed.
Print Assumptions C120_transitivity_refuted.

(** * C121: signs, absolute values and rounding down *)

(** Missing: numbers with digits that the scale does not count. *)
Theorem C121_sign_partial : forall x m, sd_wf x -> units x m ->
  (exists b, sd_negative x = Ok b /\ (b = true <-> (value x < 0)%Q))
  /\ (exists z, sd_abs x = Ok z /\ (value z == Qabs (value x))%Q /\ scale z = scale x)
  /\ sd_floor x = Ok (Qfloor (value x)).
Proof.
  intros x m X U. split; [exact (negative_units x m X U)|].
  split; [exact (abs_units x m X U)|exact (floor_units x m X U)].
Qed.
Print Assumptions C121_sign_partial.

Example C121_price : sd_wf (SD (-5) 4 2) /\ units (SD (-5) 4 2) (-125)
  /\ sd_abs (SD (-5) 4 2) = Ok (SD 5 4 2) /\ sd_floor (SD (-5) 4 2) = Ok (-2).
Proof. repeat split; vm_compute; congruence. Qed.

Theorem C121_truncated : forall x, sd_wf x ->
  sd_truncated x = if Qle_bool 0 (value x) then Qfloor (value x) else Qceiling (value x).
Proof. intros x X. exact (FractionOrder.rat_truncated_ok (fraction x) (proj1 X)). Qed.
Print Assumptions C121_truncated.

Example C121_truncated_case : sd_wf (SD (-5) 4 2) /\ sd_truncated (SD (-5) 4 2) = -1.
Proof. repeat split; vm_compute; congruence. Qed.

(** the absolute value of 1/250 at scale 2 is -1/250 *)
Theorem C121_abs_refuted : exists x z, sd_wf x /\ sd_abs x = Ok z /\ (0 < value x)%Q /\ (value z < 0)%Q.
Proof. exists (SD 1 250 2), (SD (-1) 250 2). repeat split; vm_compute; congruence. Qed.
Print Assumptions C121_abs_refuted.

(** the floor of -1/250 at scale 2 is 0 *)
Theorem C121_floor_refuted : exists x z, sd_wf x /\ sd_floor x = Ok z /\ (value x < inject_Z z)%Q.
Proof. exists (SD (-1) 250 2), 0. repeat split; vm_compute; congruence. Qed.
Print Assumptions C121_floor_refuted.

(** * C122: printing and reading *)

(** Missing: numbers with digits that the scale does not count. *)
Theorem C122_print_read_partial : forall x m rest, sd_wf x -> units x m -> scale x < 2 ^ 31 -> after_literal rest ->
  exists w y, sd_print x = Ok w /\ read_scaled (w ++ rest) = Ok (y, rest) /\ (value y == value x)%Q /\ scale y = scale x.
Proof. exact round_trip. Qed.
Print Assumptions C122_print_read_partial.

(** -1.05s2 *)
Example C122_literal : sd_wf (SD (-21) 20 2) /\ units (SD (-21) 20 2) (-105) /\ after_literal [46]
  /\ sd_print (SD (-21) 20 2) = Ok [45; 49; 46; 48; 53; 115; 50]
  /\ read_scaled [45; 49; 46; 48; 53; 115; 50; 46] = Ok (SD (-21) 20 2, [46]).
Proof. split; [repeat split; vm_compute; congruence|]. split; [vm_compute; congruence|].
  split; [cbn; lia|]. split; vm_compute; reflexivity. Qed.

(** The digits shown are those of the number, rounded towards zero. *)
Theorem C122_digits : forall x, sd_wf x -> exists neg w, sd_display x = Ok w
  /\ decimal_notation neg (Z.abs (ScaledD.num x) * 10 ^ scale x / den x) (scale x) w
  /\ (forall m, units x m -> neg = (m <? 0)).
Proof. exact display_ok. Qed.
Print Assumptions C122_digits.

Example C122_digits_case : sd_wf (SD 200 3 2) /\ sd_display (SD 200 3 2) = Ok [54; 54; 46; 54; 54].
Proof. split; [repeat split; vm_compute; congruence|vm_compute; reflexivity]. Qed.

(** 2/3 at scale 2 is printed as 0.66s2, which is not equal to it *)
Theorem C122_print_read_refuted : exists x w y, sd_wf x /\ sd_print x = Ok w /\ read_scaled w = Ok (y, [])
  /\ sd_eq x y = Ok false.
Proof.
  exists (SD 2 3 2), [48; 46; 54; 54; 115; 50], (SD 33 50 2).
  split; [repeat split; vm_compute; congruence|]. split; [vm_compute; reflexivity|]. split; vm_compute; reflexivity.
Qed.
Print Assumptions C122_print_read_refuted.

(** -1/200 at scale 2 is printed as -0.00s2 *)
Theorem C122_minus_zero_refuted : exists x, sd_wf x /\ sd_display x = Ok [45; 48; 46; 48; 48].
Proof. exists (SD (-1) 200 2). split; [repeat split; vm_compute; congruence|vm_compute; reflexivity]. Qed.
Print Assumptions C122_minus_zero_refuted.
