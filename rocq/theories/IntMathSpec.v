(** Independent specifications of the number-theoretic functions: textbook
    definitions, not derived from the code. *)
From Verif Require Import Base.

(** n! *)
Fixpoint fact (n : nat) : Z :=
  match n with O => 1 | S m => Z.of_nat (S m) * fact m end.

(** The number of k-element subsets of an n-element set (Pascal's rule). *)
Fixpoint choose (n k : nat) : Z :=
  match n, k with
  | _, O => 1
  | O, S _ => 0
  | S m, S j => choose m j + choose m (S j)
  end.

(** The largest exponent of a power of b not above n, and the smallest exponent
    of a power of b not below n. *)
Definition is_floor_log (b n e : Z) : Prop := 0 <= e /\ b ^ e <= n < b ^ (e + 1).
Definition is_ceiling_log (b n e : Z) : Prop := 0 <= e /\ n <= b ^ e /\ (e = 0 \/ b ^ (e - 1) < n).
