(** Rational numbers: the value of an Integer or Fraction in Q. *)
From Coq Require Export QArith.
From Verif Require Import Base Fraction.
Open Scope Z_scope.

Definition rval (r : rat) : Q :=
  match r with RInt z => inject_Z z | RFrac n d => n # Z.to_pos d end.
(** Lowest terms, positive denominator. *)
Definition wf (r : rat) : Prop :=
  match r with RInt _ => True | RFrac n d => 0 < d /\ Z.gcd n d = 1 end.
(** An integral value is an Integer. *)
Definition reduced (r : rat) : Prop :=
  match r with RInt _ => True | RFrac n d => 1 < d /\ Z.gcd n d = 1 end.
(** The message answers a well-formed number with that value. *)
Definition yields (o : outcome rat) (q : Q) : Prop :=
  exists r, o = Ok r /\ wf r /\ (rval r == q)%Q.
