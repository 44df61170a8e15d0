(** C10 (gcd:, lcm:), C11 (printing and reading), C12 (logarithms), C13 (factorial),
    C14 (binomial:). *)
From Verif Require Import Base IntRep IntMath IntMathSpec IntMathProofs IntFactProofs.
From Verif Require Import IntPrint IntPrintSpec IntPrintProofs IntMathLemmas.

(** The receiver of the excluded pairs is a LargeNegativeInteger. *)
Theorem C10_gcd : forall a b, ~ (a < - 2 ^ 62 /\ b = 0) -> int_gcd a b = Ok (Z.gcd a b).
Proof. exact int_gcd_ok. Qed.
Print Assumptions C10_gcd.

Theorem C10_gcd_refuted : exists a b g, int_gcd a b = Ok g /\ g < 0.
Proof. exact gcd_negative. Qed.
Print Assumptions C10_gcd_refuted.

Theorem C10_lcm : forall a b, int_lcm a b = Ok (Z.lcm a b).
Proof. exact int_lcm_ok. Qed.
Print Assumptions C10_lcm.

Example C10_example :
  ~ (- 2 ^ 62 < - 2 ^ 62 /\ 2 ^ 63 = 0) /\ int_gcd (- 2 ^ 62) (2 ^ 63) = Ok (2 ^ 62) /\
  int_gcd 12 (-18) = Ok 6 /\ int_lcm (-4) 6 = Ok 12 /\ int_lcm 0 0 = Ok 0.
Proof. vm_compute. intuition discriminate. Qed.

Theorem C11_print_read : forall n b rest, 2 <= b <= 36 -> after_number rest ->
  exists s, print_string n b = Ok s /\ notation b n s /\
    read_from b (s ++ rest) = ReadInt n rest /\ read_from b (map lowercase s ++ rest) = ReadInt n rest.
Proof. exact print_read. Qed.
Print Assumptions C11_print_read.

(** There is only one such notation. *)
Theorem C11_notation_unique : forall b v l l', 2 <= b -> numeral b v l -> numeral b v l' -> l = l'.
Proof. exact numeral_unique. Qed.
Print Assumptions C11_notation_unique.

Theorem C11_as_integer : forall n rest s, after_number rest -> print_string n 10 = Ok s ->
  as_integer (s ++ rest) = n.
Proof. exact as_integer_ok. Qed.
Print Assumptions C11_as_integer.

Theorem C11_print_radix : forall n b, 2 <= b <= 36 -> exists bs s,
  print_string b 10 = Ok bs /\ print_string n b = Ok s /\ print_radix n b = Ok (bs ++ 114 :: s).
Proof. exact print_radix_ok. Qed.
Print Assumptions C11_print_radix.

Theorem C11_print_padded : forall n p size b, 2 <= b <= 36 -> exists l, numeral b (Z.abs n) l /\
  let sign := if n <? 0 then [45] else [] in
  print_padded n p size b =
    Ok (sign ++ repeat p (Z.to_nat (size - Z.of_nat (length (sign ++ l)))) ++ map ascii_digit l).
Proof. exact print_padded_ok. Qed.
Print Assumptions C11_print_padded.

Example C11_example :
  print_string (- 255) 16 = Ok [45; 70; 70] /\ after_number [32; 49] /\
  read_from 16 [45; 102; 70; 32; 49] = ReadInt (- 255) [32; 49] /\
  print_string (2 ^ 65) 36 = Ok [55; 83; 65; 83; 50; 50; 52; 67; 57; 75; 88; 75; 87] /\
  print_radix (- 255) 16 = Ok [49; 54; 114; 45; 70; 70] /\
  print_padded (- 255) 48 6 16 = Ok [45; 48; 48; 48; 70; 70].
Proof. vm_compute. intuition discriminate. Qed.

Theorem C12_floor_log : forall n b, 2 <= b -> 1 <= n ->
  exists e, floorLog n b = Ok e /\ is_floor_log b n e.
Proof. exact floorLog_ok. Qed.
Print Assumptions C12_floor_log.

(** 101 ceilingLog: 10 answers 2, and 1 ceilingLog: 10 answers 1. *)
Theorem C12_ceiling_log_refuted :
  (exists n b r, 2 <= b /\ 2 <= n /\ ceilingLog n b = Ok r /\ b ^ r < n) /\
  (exists b r, 2 <= b /\ ceilingLog 1 b = Ok r /\ ~ is_ceiling_log b 1 r).
Proof. exact ceiling_log_wrong. Qed.
Print Assumptions C12_ceiling_log_refuted.

(** What holds of ceilingLog: it is never too large, at most 1 too small, and right
    exactly when its answer is an upper bound. *)
Theorem C12_ceiling_log_partial : forall n b, 2 <= b -> 2 <= n ->
  exists r, ceilingLog n b = Ok r /\ 1 <= r /\ b ^ (r - 1) < n < b ^ r + b ^ (r - 1) /\
    (is_ceiling_log b n r <-> n <= b ^ r).
Proof. exact ceilingLog_bounds. Qed.
Print Assumptions C12_ceiling_log_partial.

Theorem C12_invalid_arguments : forall n b, n < 0 \/ b <= 1 -> floorLog n b = Err /\ ceilingLog n b = Err.
Proof. exact floorLog_err. Qed.
Print Assumptions C12_invalid_arguments.

Example C12_example : floorLog 999 10 = Ok 2 /\ floorLog 1000 10 = Ok 3 /\ ceilingLog 1000 10 = Ok 3 /\
  ceilingLog 1100 10 = Ok 4 /\ ceilingLog 1001 10 = Ok 3.
Proof. vm_compute. intuition discriminate. Qed.

Theorem C13_factorial : forall n, 0 <= n -> factorial n = Ok (fact (Z.to_nat n)).
Proof. exact factorial_ok. Qed.
Print Assumptions C13_factorial.

Example C13_example : factorial 25 = Ok 15511210043330985984000000.
Proof. vm_compute. reflexivity. Qed.

Theorem C14_binomial : forall fuel n k, 0 <= k <= n -> n <= 2 ^ 62 - 1 -> n <= Z.of_nat fuel + 1 ->
  binomial fuel n k = Ok (choose (Z.to_nat n) (Z.to_nat k)).
Proof. exact binomial_ok. Qed.
Print Assumptions C14_binomial.

Theorem C14_choose_is_quotient : forall n k, (k <= n)%nat ->
  choose n k * fact k * fact (n - k) = fact n.
Proof. exact choose_fact. Qed.
Print Assumptions C14_choose_is_quotient.

(** With a LargePositiveInteger receiver the loop never ends (unless k is 0 or n). *)
Theorem C14_binomial_refuted : exists n k, 0 <= k <= n /\ forall fuel, binomial fuel n k = OutOfFuel.
Proof. exact binomial_loops. Qed.
Print Assumptions C14_binomial_refuted.

Theorem C14_binomial_large_loops : forall n k, 2 ^ 62 <= n -> 0 < k < n ->
  forall fuel, binomial fuel n k = OutOfFuel.
Proof. exact binomial_diverges. Qed.
Print Assumptions C14_binomial_large_loops.

Example C14_example : binomial 100 100 30 = Ok 29372339821610944823963760.
Proof. vm_compute. reflexivity. Qed.
