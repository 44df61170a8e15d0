(** What a ScaledDecimal stands for, as a rational number. *)
From Coq Require Export QArith Qround.
From Verif Require Import Base Fraction FractionSpec IntPrintSpec ScaledD.
Open Scope Z_scope.

Definition value (x : sd) : Q := rval (fraction x).
(** the fraction is in lowest terms and the scale is not negative *)
Definition sd_wf (x : sd) : Prop := wf (fraction x) /\ 0 <= scale x.
(** the scale counts all the digits that there are, so that the value is the number
    of units of the last digit *)
Definition units (x : sd) (m : Z) : Prop := (value x * inject_Z (10 ^ scale x) == inject_Z m)%Q.
(** the message answers the exact result, with the larger of the scales *)
Definition exactly (o : outcome sd) (q : Q) (s : Z) : Prop :=
  exists z, o = Ok z /\ sd_wf z /\ (value z == q)%Q /\ scale z = s.

(** the usual notation of m units of the last of s digits: a minus sign if needed,
    at least one digit before the full stop, and s digits after it *)
Definition decimal_notation (negative : bool) (m s : Z) (w : list Z) : Prop :=
  exists whole part, numeral 10 (m / 10 ^ s) whole /\ Forall (fun d => 0 <= d < 10) part
  /\ Z.of_nat (length part) = s /\ pos_value 10 part = m mod 10 ^ s
  /\ w = (if negative then [45] else []) ++ map ascii_digit whole
         ++ (if s =? 0 then [] else 46 :: map ascii_digit part).
