(** Copying a range of elements between two sequences, elements counted from 1. *)
From Verif Require Import Base.

Section Spec.
  Context {A : Type}.
  Definition elt (l : list A) (i : Z) : option A := if i <=? 0 then None else nth_error l (Z.to_nat (i - 1)).
  (** The range exists in both sequences. *)
  Definition in_range (dst : list A) (start stop : Z) (src : list A) (from : Z) : Prop :=
    1 <= start /\ start - 1 <= stop <= Z.of_nat (length dst) /\
    (start <= stop -> 1 <= from) /\ from + (stop - start) <= Z.of_nat (length src).
  (** [l] is [dst] with the elements from start to stop taken from [src]. *)
  Definition replaced (dst : list A) (start stop : Z) (src : list A) (from : Z) (l : list A) : Prop :=
    length l = length dst /\
    forall i, elt l i = if (start <=? i) && (i <=? stop) then elt src (from + (i - start)) else elt dst i.
End Spec.
