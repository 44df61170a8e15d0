(** SmallInteger>>lowBit and SmallInteger>>highBit: kernel/SmallInt.st:94-167. *)
From Verif Require Import Base.

(** One test of lowBit: (n bitAnd: mask) = 0 ifTrue: [bit := bit + w. n := n
    bitShift: w negated], with mask = 2^w - 1 as in the source (1073741823 =
    2^30-1, 65535, 255, 15, 3); kernel/SmallInt.st:104-123. *)
Definition low_step (w mask : Z) (s : Z * Z) : Z * Z :=
  let '(n, bit) := s in
  if Z.land n mask =? 0 then (Z.shiftr n w, bit + w) else (n, bit).

(** lowBit: kernel/SmallInt.st:94-125. *)
Definition low_bit (self : Z) : Z :=
  if self =? 0 then 0 else
  let s := low_step 30 1073741823 (self, 2) in
  let s := low_step 16 65535 s in
  let s := low_step 8 255 s in
  let s := low_step 4 15 s in
  let '(n, bit) := low_step 2 3 s in
  bit - Z.land n 1.

(** The loop [n > 1073741823] whileTrue: kernel/SmallInt.st:142-144. *)
Fixpoint high_loop (fuel : nat) (n bit : Z) : outcome (Z * Z) :=
  match fuel with
  | O => OutOfFuel
  | S f => if n >? 1073741823 then high_loop f (Z.shiftr n 30) (bit + 30) else Ok (n, bit)
  end.

(** One test of highBit; kernel/SmallInt.st:145-164. *)
Definition high_step (w limit : Z) (s : Z * Z) : Z * Z :=
  let '(n, bit) := s in
  if n >? limit then (Z.shiftr n w, bit + w) else (n, bit).

(** highBit: kernel/SmallInt.st:127-166. The receiver's negation may be a
    LargeInteger (2^62); integers are unbounded here. *)
Definition high_bit (fuel : nat) (self : Z) : outcome Z :=
  if self =? 0 then Ok 0 else
  let '(n, bit) :=
    if self <? 0 then
      let n := - self in
      (n, if Z.land n self =? n then 0 else 1)
    else (self, 0) in
  match high_loop fuel n bit with
  | Ok s =>
    let s := high_step 16 65535 s in
    let s := high_step 8 255 s in
    let s := high_step 4 15 s in
    let s := high_step 2 3 s in
    let '(n, bit) := high_step 1 1 s in
    Ok (n + bit)
  | Err => Err | UB => UB | Abort => Abort | OutOfFuel => OutOfFuel
  end.
