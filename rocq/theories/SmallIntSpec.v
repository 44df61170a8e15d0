(** Specification of SmallInteger arithmetic, independent of the model. *)
From Verif Require Import Base.

(** The tagged word [w] is the SmallInteger [z].  Documented range:
    kernel/SmallInt.st:52-66 (largest = 2^62 - 1, smallest = -2^62). *)
Definition denotes (w z : Z) : Prop := w = 2 * z + 1 /\ - 2 ^ 62 <= z < 2 ^ 62.

(** A binary arithmetic primitive is exact for the integer function [f] at
    (a, b): it answers the SmallInteger f a b if there is one, and fails (so
    that the LargeInteger fallback computes it) otherwise. *)
Definition exact_or_fails (p : Z -> Z -> prim Z) (f : Z -> Z -> Z) (a b : Z) : Prop :=
  forall w1 w2, denotes w1 a -> denotes w2 b ->
    (- 2 ^ 62 <= f a b < 2 ^ 62 -> exists r, p w1 w2 = Succeeded r /\ denotes r (f a b)) /\
    (~ (- 2 ^ 62 <= f a b < 2 ^ 62) -> p w1 w2 = Failed).

(** A comparison primitive decides the relation [f] at (a, b). *)
Definition decides (p : Z -> Z -> prim bool) (f : Z -> Z -> bool) (a b : Z) : Prop :=
  forall w1 w2, denotes w1 a -> denotes w2 b -> p w1 w2 = Succeeded (f a b).
