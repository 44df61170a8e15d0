(** What LargeInteger arithmetic is given. *)
From Verif Require Import Base Digits IntRep.

(** The operands LargeInteger primitives can receive: SmallIntegers, and
    LargeIntegers of minimal length and of the class of their sign.  This includes
    the canonical Integers and the short-lived LargeIntegers of small value that
    LargeInteger class >> fromInteger: creates (kernel/LargeInt.st:92-139). *)
Definition int_arg (i : stint) : Prop :=
  match i with
  | Small z => - 2 ^ 62 <= z < 2 ^ 62
  | Large neg bs =>
    let n := Z.of_nat (length bs) in
    let v := st_val i in
    digits_ok 256 bs /\ 1 <= n /\
    (neg = false -> 0 < v < 2 ^ (8 * n - 1) /\ (n = 1 \/ 2 ^ (8 * n - 9) <= v)) /\
    (neg = true -> - 2 ^ (8 * n - 1) <= v < 0 /\ (n = 1 \/ v < - 2 ^ (8 * n - 9)))
  end.

(** [pad]: any content of the unused bytes of the last 8-byte word of object [i]. *)
Definition pad_of (i : stint) (pad : list Z) : Prop :=
  match i with
  | Small _ => True
  | Large _ bs => digits_ok 256 pad /\ (length pad < 8)%nat /\
                  Nat.divide 8 (length bs + length pad)
  end.

Definition is_large (i : stint) : Prop := match i with Large _ _ => True | _ => False end.

(** The primitive succeeds and answers the canonical Integer of value [z]. *)
Definition answers (o : outcome stint) (z : Z) : Prop :=
  exists i, o = Ok i /\ is_int_obj i z.
