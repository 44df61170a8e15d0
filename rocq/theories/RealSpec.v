(** What a Float literal denotes, and which Float is the nearest: stated on the
    real numbers, with the rounding to nearest of the Flocq library. *)
From Coq Require Import ZArith Reals List.
From Flocq Require Import Core.
From Verif Require Import Real.
Import ListNotations.
Open Scope Z_scope.

(** The integer written by digits, the most significant first. *)
Definition number (base : Z) (ds : list Z) : Z :=
  fold_left (fun n d => n * base + d) ds 0.

(** The exponent of a literal: a sign (true for minus) and decimal digits. *)
Definition exponent (ex : option (bool * list Z)) : Z :=
  match ex with
  | None => 0
  | Some (true, ds) => - number 10 ds
  | Some (false, ds) => number 10 ds
  end.

(** The number written by a literal: its digits as an integer, times the base
    to the power of the exponent less the number of digits after the point. *)
Definition written (base : Z) (ints fracs : list Z) (ex : option (bool * list Z)) : R :=
  (IZR (number base (ints ++ fracs))
   * powerRZ (IZR base) (exponent ex - Z.of_nat (length fracs)))%R.

(** The number that an integer times a power of two is. *)
Definition scaled (x : Z * Z) : R := (IZR (fst x) * bpow radix2 (snd x))%R.

(** The number with [p] significant bits that is nearest to [q], the even one
    of two. *)
Definition nearest (p : Z) (q : R) : R := round radix2 (FLX_exp p) ZnearestE q.

(** [y] is half way between two neighbouring numbers with [p] bits. *)
Definition midpoint (p : Z) (y : R) : Prop :=
  exists f, generic_format radix2 (FLX_exp p) f
         /\ y = ((f + succ radix2 (FLX_exp p) f) / 2)%R.

(** The digits of a literal in a base that the lexer accepts. *)
Definition literal_ok (base : Z) (ints fracs : list Z) : Prop :=
  2 <= base <= 36 /\ Forall (fun d => 0 <= d < base) (ints ++ fracs).

(** The exponent's digits. *)
Definition exponent_ok (ex : option (bool * list Z)) : Prop :=
  match ex with
  | None => True
  | Some (_, ds) => Forall (fun d => 0 <= d < 10) ds
  end.

(** Literals that are not absurdly long. *)
Definition bounded (ints fracs : list Z) (ex : option (bool * list Z)) : Prop :=
  Z.of_nat (length (ints ++ fracs)) <= 65536 /\ Z.abs (exponent ex) <= 65536.

(** How close to a midpoint, relatively, a literal has to be for the Float to be
    in doubt (of the model only the kinds of Floats and their bits are used). *)
Definition margin (k : kind) : R :=
  match k with FloatQ => bpow radix2 (-78) | _ => bpow radix2 (-63) end.

(** The relative error: half a unit in the last place, and a little. *)
Definition tolerance (k : kind) : R :=
  (bpow radix2 (- bits k) + match k with FloatQ => bpow radix2 (-77) | _ => bpow radix2 (-62) end)%R.
