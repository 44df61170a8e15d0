(** Property C04. *)
From Verif Require Import Base BitCount BitCountProofs.

(** highBit is the length of the shortest representation. *)
Theorem C04_smallint_high_bit_positive :
  forall n, 0 < n < 2 ^ 62 ->
  exists h, (forall fuel, (3 <= fuel)%nat -> high_bit fuel n = Ok h) /\ 2 ^ (h - 1) <= n < 2 ^ h.
Proof. exact high_bit_pos_spec. Qed.
Print Assumptions C04_smallint_high_bit_positive.

Theorem C04_smallint_high_bit_negative :
  forall n, - 2 ^ 62 <= n < 0 ->
  exists h, (forall fuel, (3 <= fuel)%nat -> high_bit fuel n = Ok h) /\ 1 <= h /\
    - 2 ^ (h - 1) <= n /\ (h = 1 \/ n < - 2 ^ (h - 2)).
Proof. exact high_bit_neg_spec. Qed.
Print Assumptions C04_smallint_high_bit_negative.

(** lowBit is right for all SmallIntegers but one ... *)
Theorem C04_smallint_low_bit :
  forall n, n <> 0 -> - 2 ^ 62 < n < 2 ^ 62 ->
  exists m k, n = m * 2 ^ k /\ Z.odd m = true /\ 0 <= k /\ low_bit n = k + 1.
Proof. exact low_bit_spec. Qed.
Print Assumptions C04_smallint_low_bit.

(** ... and wrong for SmallInteger smallest: the answer is 62, not 63. *)
Theorem C04_smallint_low_bit_refuted :
  exists n, - 2 ^ 62 <= n < 2 ^ 62 /\ n <> 0 /\
    ~ (exists m k, n = m * 2 ^ k /\ Z.odd m = true /\ 0 <= k /\ low_bit n = k + 1).
Proof.
  exists (- 2 ^ 62). split; [lia|]. split; [lia|].
  intros (m & k & E & O & K & L).
  assert (L' : low_bit (- 2 ^ 62) = 62) by (vm_compute; reflexivity).
  rewrite L' in L. assert (k = 61) by lia. subst k.
  assert (m = -2) by lia. subst m. discriminate O.
Qed.
Print Assumptions C04_smallint_low_bit_refuted.

Example C04_example :
  high_bit 3 (2 ^ 61 + 5) = Ok 62 /\ high_bit 3 (-6) = Ok 4 /\ high_bit 3 (-8) = Ok 4 /\
  low_bit 96 = 6 /\ low_bit (- 2 ^ 61) = 62 /\ low_bit (- 2 ^ 62) = 62.
Proof. vm_compute. repeat split. Qed.
