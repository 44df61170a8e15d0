(** The Mersenne Twister MT19937 as Matsumoto and Nishimura define it: a sequence of words in which each
    depends on three earlier ones, and a bijection that scrambles each word for the reader.  The code is
    said to use it in libgst/interp.inl:215-216. *)
From Verif Require Import Base.
Import ListNotations.
Local Open Scope Z_scope.

(** A word (libgst/interp.inl:220). *)
Definition isword (x : Z) : Prop := 0 <= x < 2 ^ 32.

(** The product of a word by the matrix A (libgst/interp.inl:248-250). *)
Definition times_A (y : Z) : Z := if Z.odd y then Z.lxor (y / 2) 2567483615 else y / 2.

(** The high bit of one word above the 31 low bits of another (libgst/interp.inl:247). *)
Definition joined (u v : Z) : Z := u / 2 ^ 31 * 2 ^ 31 + v mod 2 ^ 31.

(** The recurrence (libgst/interp.inl:244-251). *)
Definition twister (x : nat -> Z) : Prop :=
  forall k, x (k + Z.to_nat 624)%nat = Z.lxor (x (k + Z.to_nat 397)%nat) (times_A (joined (x k) (x (S k)))).

(** The scrambling (libgst/interp.inl:229-232). *)
Definition scrambled (y y' : Z) : Prop :=
  exists a b c, a = Z.lxor y (y / 2 ^ 11) /\ b = Z.lxor a (Z.land (a * 2 ^ 7) 2636928640) /\
    c = Z.lxor b (Z.land (b * 2 ^ 15) 4022730752) /\ y' = Z.lxor c (c / 2 ^ 18).

(** A Random that is at the beginning of a round, as seed: leaves it: 625 words, the last one 0
    (kernel/Random.st:52-57, 159). *)
Definition fresh (o : list Z) : Prop :=
  length o = Z.to_nat 625 /\ Forall isword o /\ nth (Z.to_nat 624) o 1 = 0.

(** Any Random made by seed: and used by next and its like: the index is in the table
    (libgst/interp.inl:234). *)
Definition usable (o : list Z) : Prop :=
  length o = Z.to_nat 625 /\ Forall isword o /\ nth (Z.to_nat 624) o 1 < 624.
