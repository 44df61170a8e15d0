(** What a printed Float should be. *)
From Coq Require Import ZArith Reals List.
From Flocq Require Import Core.
From Verif Require Import Real RealSpec FloatPrint.
Import ListNotations.
Open Scope Z_scope.

(** The characters of a literal: digits, a point, digits and an exponent. *)
Definition text (negative : bool) (ints fracs : list Z) (ex : option (bool * list Z)) : list token :=
  (if negative then [Minus] else []) ++ map Dg ints ++ Dot :: map Dg fracs
  ++ match ex with
     | None => []
     | Some (minus, ds) => Letter :: (if minus then [Minus] else []) ++ map Dg ds
     end.

(** Digits that the compiler reads. *)
Definition readable (ints fracs : list Z) (ex : option (bool * list Z)) : Prop :=
  ints <> [] /\ fracs <> [] /\ literal_ok 10 ints fracs /\ exponent_ok ex
  /\ match ex with Some (_, ds) => ds <> [] | None => True end.

(** A Float with [p] bits: an integer with [p] bits times a unit in the last
    place. *)
Definition is_float (k : kind) (m : Z) : Prop := 2 ^ (bits k - 1) <= m < 2 ^ bits k.
Definition ulp (k : kind) (e : Z) : R := bpow radix2 (e - bits k + 1).
Definition value (k : kind) (m e : Z) : R := (IZR m * ulp k e)%R.

Definition ten : radix := Build_radix 10 eq_refl.

(** So many decimal digits fit in a Float. *)
Definition kept (k : kind) : Z := match k with FloatE => 6 | FloatD => 15 | FloatQ => 18 end.

(** A power of ten is just above a number. *)
Definition ten_above (q d : R) : Prop := exists i, (q < bpow ten i < q + d)%R.
