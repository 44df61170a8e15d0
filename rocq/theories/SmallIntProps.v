(** Properties C01, C02, C03. *)
From Verif Require Import Base SmallInt SmallIntSpec SmallIntProofs.

(** C01 *)
Theorem C01_smallint_plus_exact :
  forall portable a b, exact_or_fails (prim_plus portable) Z.add a b.
Proof. exact plus_spec. Qed.
Print Assumptions C01_smallint_plus_exact.

Theorem C01_smallint_minus_exact :
  forall portable a b, exact_or_fails (prim_minus portable) Z.sub a b.
Proof. exact minus_spec. Qed.
Print Assumptions C01_smallint_minus_exact.

Theorem C01_smallint_times_exact :
  forall portable a b, exact_or_fails (prim_times portable) Z.mul a b.
Proof. exact times_spec. Qed.
Print Assumptions C01_smallint_times_exact.

Theorem C01_smallint_non_integers_never_misread :
  forall w1 w2, Z.odd w1 && Z.odd w2 = false ->
  prim_plus false w1 w2 = Failed /\ prim_minus false w1 w2 = Failed /\
  prim_times false w1 w2 = Failed /\ prim_divide w1 w2 = Failed /\
  prim_modulo w1 w2 = Failed /\ prim_int_div w1 w2 = Failed /\ prim_quo w1 w2 = Failed /\
  prim_bit_and w1 w2 = Failed /\ prim_bit_or w1 w2 = Failed /\ prim_bit_xor w1 w2 = Failed /\
  prim_bit_shift w1 w2 = Failed /\ op_bit_and_special w1 w2 = Failed /\
  prim_lt w1 w2 = Failed /\ prim_eq w1 w2 = Failed.
Proof. exact non_int_fails. Qed.
Print Assumptions C01_smallint_non_integers_never_misread.

Example C01_example :
  denotes (2 * (2 ^ 62 - 1) + 1) (2 ^ 62 - 1) /\ denotes 3 1 /\
  prim_plus false (2 * (2 ^ 62 - 1) + 1) 3 = Failed /\
  prim_plus true (2 * (2 ^ 62 - 2) + 1) 3 = Succeeded (2 * (2 ^ 62 - 1) + 1) /\
  prim_times true (2 * (2 ^ 31) + 1) (2 * (- 2 ^ 31) + 1) = Succeeded (2 * (- 2 ^ 62) + 1) /\
  prim_times true (2 * (2 ^ 31) + 1) (2 * (2 ^ 31) + 1) = Failed.
Proof. vm_compute. intuition discriminate. Qed.

(** C02.  The full statement is false at one point. *)
Theorem C02_smallint_division_refuted :
  exists a b w1 w2, denotes w1 a /\ denotes w2 b /\ b <> 0 /\
    ~ exact_or_fails prim_int_div Z.div a b /\
    ~ exact_or_fails prim_quo Z.quot a b /\
    prim_divide w1 w2 = Succeeded w1 /\ a / b <> a.
Proof.
  exists (- 2 ^ 62), (-1), (2 * (- 2 ^ 62) + 1), (-1).
  destruct minval_division as (D1 & D2 & E1 & E2 & E3).
  repeat split; try exact D1; try exact D2; try lia; try exact E1; try discriminate.
  - intros H. destruct (H _ _ D1 D2) as [_ H2]. rewrite E2 in H2.
    assert (~ - 2 ^ 62 <= - 2 ^ 62 / -1 < 2 ^ 62) as N by (vm_compute; intuition discriminate).
    discriminate (H2 N).
  - intros H. destruct (H _ _ D1 D2) as [_ H2]. rewrite E3 in H2.
    assert (~ - 2 ^ 62 <= Z.quot (- 2 ^ 62) (-1) < 2 ^ 62) as N by (vm_compute; intuition discriminate).
    discriminate (H2 N).
Qed.
Print Assumptions C02_smallint_division_refuted.

(** ... and true everywhere else. *)
Theorem C02_smallint_int_div_exact :
  forall a b, b <> 0 -> ~ (a = - 2 ^ 62 /\ b = -1) -> exact_or_fails prim_int_div Z.div a b.
Proof. exact int_div_spec. Qed.
Print Assumptions C02_smallint_int_div_exact.

Theorem C02_smallint_modulo_exact :
  forall a b, b <> 0 -> exact_or_fails prim_modulo Z.modulo a b.
Proof. exact modulo_spec. Qed.
Print Assumptions C02_smallint_modulo_exact.

Theorem C02_smallint_quo_exact :
  forall a b, b <> 0 -> ~ (a = - 2 ^ 62 /\ b = -1) -> exact_or_fails prim_quo Z.quot a b.
Proof. exact quo_spec. Qed.
Print Assumptions C02_smallint_quo_exact.

Theorem C02_smallint_divide_exact :
  forall a b w1 w2, b <> 0 -> ~ (a = - 2 ^ 62 /\ b = -1) -> denotes w1 a -> denotes w2 b ->
  (forall q, a = q * b -> exists r, prim_divide w1 w2 = Succeeded r /\ denotes r q) /\
  ((forall q, a <> q * b) -> prim_divide w1 w2 = Failed).
Proof. exact divide_spec. Qed.
Print Assumptions C02_smallint_divide_exact.

Example C02_example :
  denotes (2 * (-7) + 1) (-7) /\ denotes 5 2 /\
  prim_int_div (2 * (-7) + 1) 5 = Succeeded (2 * (-4) + 1) /\
  prim_modulo (2 * (-7) + 1) 5 = Succeeded 3 /\
  prim_quo (2 * (-7) + 1) 5 = Succeeded (2 * (-3) + 1) /\
  prim_divide (2 * (-7) + 1) 5 = Failed /\ prim_divide (2 * (-8) + 1) 5 = Succeeded (2 * (-4) + 1).
Proof. vm_compute. intuition discriminate. Qed.

(** C03 *)
Theorem C03_smallint_comparisons :
  forall a b,
  decides prim_lt Z.ltb a b /\ decides prim_gt (fun x y => y <? x) a b /\
  decides prim_le Z.leb a b /\ decides prim_ge (fun x y => y <=? x) a b /\
  decides prim_eq Z.eqb a b /\ decides prim_ne (fun x y => negb (x =? y)) a b.
Proof. exact cmp_spec. Qed.
Print Assumptions C03_smallint_comparisons.

Theorem C03_smallint_bit_operations :
  forall a b,
  exact_or_fails prim_bit_and Z.land a b /\ exact_or_fails prim_bit_or Z.lor a b /\
  exact_or_fails prim_bit_xor Z.lxor a b /\ exact_or_fails op_bit_and_special Z.land a b.
Proof. exact bitops_spec. Qed.
Print Assumptions C03_smallint_bit_operations.

Theorem C03_smallint_bit_shift :
  forall a b w1 w2, denotes w1 a -> denotes w2 b ->
  (b < 0 -> exists r, prim_bit_shift w1 w2 = Succeeded r /\ denotes r (a / 2 ^ (- b))) /\
  (0 <= b < 62 -> - 2 ^ 62 <= a * 2 ^ b < 2 ^ 62 ->
     exists r, prim_bit_shift w1 w2 = Succeeded r /\ denotes r (a * 2 ^ b)) /\
  (0 <= b -> ~ (- 2 ^ 62 <= a * 2 ^ b < 2 ^ 62) -> prim_bit_shift w1 w2 = Failed) /\
  (62 <= b -> prim_bit_shift w1 w2 = Failed).
Proof. exact bit_shift_spec. Qed.
Print Assumptions C03_smallint_bit_shift.

Example C03_example :
  denotes (2 * (-5) + 1) (-5) /\ denotes (2 * (-1) + 1) (-1) /\
  prim_bit_shift (2 * (-5) + 1) (2 * (-1) + 1) = Succeeded (2 * (-3) + 1) /\
  prim_bit_xor (2 * (-5) + 1) (2 * 6 + 1) = Succeeded (2 * (-3) + 1) /\
  prim_bit_shift 3 (2 * 61 + 1) = Succeeded (2 * 2 ^ 61 + 1) /\
  prim_bit_shift (2 * 2 + 1) (2 * 61 + 1) = Failed.
Proof. vm_compute. intuition discriminate. Qed.
