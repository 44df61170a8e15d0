(** Number-theoretic methods of Integer: kernel/Integer.st:169-382.

    Integers are represented by their value; arithmetic on them is exact (C01-C03,
    C08, C09: none of the refuted cases occurs, since the operands divided or
    shifted here are not negative).  A value is held by a SmallInteger iff it is
    between -2^62 and 2^62-1.  Loops take a bound on the number of iterations;
    [OutOfFuel] is answered if it is not enough. *)
From Verif Require Import Base.

Definition small_largest : Z := 2 ^ 62 - 1.
Definition is_small (z : Z) : bool := (- 2 ^ 62 <=? z) && (z <? 2 ^ 62).

(** ** floorLog: and ceilingLog:, kernel/Integer.st:308-354, for an Integer radix.
    Err stands for the arithmetic errors signalled. *)
Fixpoint floor_loop (fuel : nat) (me radix answer : Z) : outcome Z :=
  if me >=? radix then
    match fuel with
    | O => OutOfFuel
    | S f => floor_loop f (me / radix) radix (answer + 1)
    end
  else Ok answer.
Fixpoint ceiling_loop (fuel : nat) (me radix answer : Z) : outcome Z :=
  if me >? radix then
    match fuel with
    | O => OutOfFuel
    | S f => ceiling_loop f (me / radix) radix (answer + 1)
    end
  else Ok answer.
(** A bound on the number of times a number can be halved. *)
Definition log_fuel (n : Z) : nat := S (Z.to_nat (Z.log2 n)).
Definition floorLog (n radix : Z) : outcome Z :=
  if n <? 0 then Err else if radix <=? 1 then Err
  else floor_loop (log_fuel n) n radix 0.
Definition ceilingLog (n radix : Z) : outcome Z :=
  if n <? 0 then Err else if radix <=? 1 then Err
  else ceiling_loop (log_fuel n) n radix 1.

(** ** gcd: and lcm: *)

(** The loop of Integer>>gcd:, kernel/Integer.st:370-374. *)
Fixpoint euclid (fuel : nat) (a b : Z) : outcome Z :=
  if b =? 0 then Ok a
  else match fuel with
  | O => OutOfFuel
  | S f => euclid f b (a mod b)
  end.
(** What the primitive of LargePositiveInteger>>gcd: and LargeNegativeInteger>>gcd:
    answers (libgst/prims.def:1305-1354; theorems C10_large_gcd and
    C10_large_gcd_zero). *)
Definition large_gcd (a b : Z) : Z :=
  if (a =? 0) || (b =? 0) then a + b else Z.gcd a b.
(** Integer>>gcd:, kernel/Integer.st:356-375, inherited by SmallInteger. The
    message resent to [self abs] may go to a LargePositiveInteger. *)
Definition gcd_pos (a b : Z) : outcome Z :=
  if is_small a then
    let (a, b) := if a <? b then (b, a) else (a, b) in
    euclid (2 * log_fuel b) a b
  else Ok (large_gcd a b).
Definition int_gcd (a b : Z) : outcome Z :=
  if is_small a then
    if (a <? 0) || (b <? 0) then gcd_pos (Z.abs a) (Z.abs b) else gcd_pos a b
  else Ok (large_gcd a b).

(** divExact:, kernel/SmallInt.st:303-314 and kernel/LargeInt.st:451-469: the
    truncated quotient; 0 divExact: 0 is 0. *)
Definition div_exact (a b : Z) : outcome Z :=
  if b =? 0 then if a =? 0 then Ok 0 else Err else Ok (Z.quot a b).

(** Integer>>lcm:, kernel/Integer.st:377-382. *)
Definition int_lcm (a b : Z) : outcome Z :=
  olet g := int_gcd a b in olet q := div_exact a g in Ok (Z.abs (q * b)).

(** ** The stack of factors of factorial and binomial: *)

(** [mask = 1] whileFalse: [a := a * stack removeLast. mask := mask bitShift: -1],
    kernel/Integer.st:292-295.  The head of the list is the end of the
    OrderedCollection; removeLast on an empty one is an error. *)
Fixpoint combine_factors (fuel : nat) (mask a : Z) (stack : list Z) : outcome (Z * list Z) :=
  if mask =? 1 then Ok (a, stack)
  else match fuel, stack with
  | O, _ => OutOfFuel
  | S f, x :: r => combine_factors f (Z.shiftr mask 1) (a * x) r
  | S f, [] => Err
  end.

Inductive fact_step : Type :=
| Finished (a : Z)
| Batch (a n : Z).

(** The inner loop, kernel/Integer.st:266-279: [a] and [b] collect every other
    factor until [b] reaches [max]. *)
Fixpoint fact_inner (fuel : nat) (max a b n : Z) : outcome fact_step :=
  let n := n - 2 in
  if n <? 2 then Ok (Finished (a * b))
  else if b <? max then
    match fuel with
    | O => OutOfFuel
    | S f => fact_inner f max (a * (n - 1)) (b * n) n
    end
  else Ok (Batch (a * b) n).

(** kernel/Integer.st:258-298 *)
Fixpoint fact_outer (fuel : nat) (k n : Z) (stack : list Z) : outcome Z :=
  olet r := fact_inner (Z.to_nat n) (small_largest / n) (n - 1) n n in
  match r with
  | Finished a => Ok (fold_left Z.mul stack a)
  | Batch a n =>
    olet (a, stack) := combine_factors (Z.to_nat k) (Z.lxor k (k - 1)) a stack in
    match fuel with
    | O => OutOfFuel
    | S f => fact_outer f (k + 1) n (a :: stack)
    end
  end.
(** Integer>>factorial, kernel/Integer.st:246-299. *)
Definition factorial (n : Z) : outcome Z :=
  if n <? 0 then Err else if n <? 2 then Ok 1
  else fact_outer (Z.to_nat n) 1 n [].

(** ** binomial:, kernel/Integer.st:169-244 *)

Inductive binom_step : Type :=
| BFinished (num den : Z)
| BGoOn (num den n k : Z).

(** [stepNum <= maxNum] whileTrue: [...], kernel/Integer.st:195-210; [gcd:] of
    the positive factors is Integer>>gcd:. *)
Fixpoint binom_while (fuel : nat) (max num den n k : Z) : outcome binom_step :=
  if num <=? max then
    let num := num * n in
    let den := den * k in
    if k =? 1 then
      olet g := int_gcd num den in
      olet num := div_exact num g in olet den := div_exact den g in
      Ok (BFinished num den)
    else match fuel with
    | O => OutOfFuel
    | S f => binom_while f max num den (n - 1) (k - 1)
    end
  else Ok (BGoOn num den n k).

(** The loop that tries to add more factors, kernel/Integer.st:194-218. *)
Fixpoint binom_fill (fuel : nat) (num den n k : Z) : outcome binom_step :=
  let max := small_largest / n in
  olet r := binom_while (Z.to_nat k) max num den n k in
  match r with
  | BFinished _ _ => Ok r
  | BGoOn num den n k =>
    olet g := int_gcd num den in
    if g >? 1 then
      olet num := div_exact num g in olet den := div_exact den g in
      if num <=? max then
        match fuel with
        | O => OutOfFuel
        | S f => binom_fill f num den n k
        end
      else Ok (BGoOn num den n k)
    else Ok (BGoOn num den n k)
  end.

(** kernel/Integer.st:192-243 *)
Fixpoint binom_outer (fuel : nat) (step n k : Z) (nums dens : list Z) : outcome Z :=
  olet r := binom_fill (Z.to_nat k) 1 1 n k in
  match r with
  | BFinished num den => Ok (fold_left Z.mul nums num / fold_left Z.mul dens den)
  | BGoOn num den n k =>
    let mask := Z.lxor step (step - 1) in
    olet (num, nums) := combine_factors (Z.to_nat step) mask num nums in
    olet (den, dens) := combine_factors (Z.to_nat step) mask den dens in
    olet g := int_gcd num den in
    olet num := div_exact num g in olet den := div_exact den g in
    match fuel with
    | O => OutOfFuel
    | S f => binom_outer f (step + 1) n k (num :: nums) (den :: dens)
    end
  end.
(** [fuel] bounds the number of batches. *)
Definition binomial (fuel : nat) (n k : Z) : outcome Z :=
  if (n <? 0) || (k <? 0) || (k >? n) then Err
  else
    let k := if k + k >? n then n - k else k in
    if k =? 0 then Ok 1 else binom_outer fuel 1 n k [] [].
