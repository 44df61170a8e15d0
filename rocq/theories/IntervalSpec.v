(** What an interval denotes. *)
From Verif Require Import Base.
Local Open Scope Z_scope.

(** [n] elements from [a] on, by steps of [s]. *)
Definition progression (a s : Z) (n : nat) : list Z :=
  map (fun k => a + Z.of_nat k * s) (seq 0 n).

(** Not beyond [b] when going by steps of [s]. *)
Definition within (b s x : Z) : Prop := if 0 <? s then x <= b else b <= x.

(** [l] is what (a to: b by: s) stands for: the progression as far as it is within [b]. *)
Definition denotes (a b s : Z) (l : list Z) : Prop :=
  l = progression a s (length l) /\ (forall x, In x l -> within b s x) /\
  ~ within b s (a + Z.of_nat (length l) * s).
