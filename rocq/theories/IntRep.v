(** What a Smalltalk Integer is, as an object, on a 64-bit VM: the vocabulary
    in which the integer properties are stated. *)
From Verif Require Import Base Digits.

(** A SmallInteger (a tagged pointer, libgst/gstpriv.h:496-500), or a
    LargeNegativeInteger ([neg = true]) / LargePositiveInteger object with its
    indexed bytes, least significant first (kernel/LargeInt.st:767-1094,
    libgst/mpz.c:1598-1790). *)
Inductive stint : Type :=
| Small (z : Z)
| Large (neg : bool) (bytes : list Z).

(** Two's complement with an implicit infinite sign extension: 0 for
    LargePositiveInteger, 255 for LargeNegativeInteger
    (mostSignificantByte, kernel/LargeInt.st:888-894 and 1089-1094). *)
Definition st_val (i : stint) : Z :=
  match i with
  | Small z => z
  | Large neg bs => dval 256 bs - if neg then 256 ^ Z.of_nat (length bs) else 0
  end.

(** The canonical form: a value that fits 63 bits is a SmallInteger; any other
    is a LargeInteger of the class given by its sign, of the least number of
    bytes [n] such that the value fits [8 n] bits including the sign. *)
Definition canonical (i : stint) : Prop :=
  match i with
  | Small z => - 2 ^ 62 <= z < 2 ^ 62
  | Large neg bs =>
    let n := Z.of_nat (length bs) in
    let v := st_val i in
    digits_ok 256 bs /\
    (neg = false -> 2 ^ 62 <= v /\ 2 ^ (8 * n - 9) <= v < 2 ^ (8 * n - 1)) /\
    (neg = true -> v < - 2 ^ 62 /\ - 2 ^ (8 * n - 1) <= v < - 2 ^ (8 * n - 9))
  end.

(** Object [i] is the canonical Integer of value [z]. *)
Definition is_int_obj (i : stint) (z : Z) : Prop := canonical i /\ st_val i = z.
