(** Printing of Floats (Float>>printOn:special:, kernel/Float.st:489-606).
    A positive Float of a kind with p bits is an integer m of p bits and its
    exponent e (frexp less one, libgst/prims.def:1569-1595): it is m * 2 ^ (e - p + 1).
    Numbers that are not normal have such an m as well.  The bounds of exponents
    are not modelled, nor are zero, infinities and NaNs (500-512). *)
From Coq Require Import QArith Qround.
From Verif Require Import Base Digits Real.

(** What is printed: digits and other characters. *)
Inductive token := Dg (d : Z) | Dot | Minus | Letter.

(** raisedToInteger:, kernel/Number.st:914-933: for a negative exponent the power
    of the reciprocal. *)
Definition qpow (b z : Z) : Q := if 0 <=? z then inject_Z (b ^ z) else Qmake 1 (Z.to_pos (b ^ (- z))).

(** asExactFraction, kernel/Float.st:270-282 *)
Definition exact (k : kind) (m e : Z) : Q := inject_Z m * qpow 2 (e - bits k + 1).

Definition qlt (a b : Q) : bool := negb (Qle_bool b a).

(** floorLog:, kernel/Number.st:847-873, for radix 10: the loop for numbers less than
    one ... *)
Fixpoint log_down (fuel : nat) (me : Q) (answer : Z) : outcome Z :=
  match fuel with
  | O => OutOfFuel
  | S fuel => let me := (me * inject_Z 10)%Q in if qlt me 1 then log_down fuel me (answer - 1) else Ok answer
  end.
(** ... and the one for the others. *)
Fixpoint log_up (fuel : nat) (self that : Q) (answer : Z) : outcome Z :=
  match fuel with
  | O => OutOfFuel
  | S fuel => if Qle_bool that self then log_up fuel self (that * inject_Z 10)%Q (answer + 1) else Ok answer
  end.
Definition floor_log (fuel : nat) (x : Q) : outcome Z :=
  if qlt x 1 then log_down fuel x (-1) else log_up fuel x 1 (-1).

(** The loop of 531-541. *)
Record found := Found { digits : Z; digit : Z; num : Q; weight : Q; all_nines : bool }.
Fixpoint digit_loop (fuel : nat) (eps num weight : Q) (digits : Z) (nines down up : bool) : outcome found :=
  match fuel with
  | O => OutOfFuel
  | S fuel =>
    let digit := Qfloor (num / weight) in
    let num := (num - inject_Z digit * weight)%Q in
    let nines := nines && (digit =? 9) in
    let down := down && Qle_bool eps num in
    let up := up && qlt num (weight - eps) in
    let digits := digits * 10 + digit in
    if down || up then digit_loop fuel eps num (weight / inject_Z 10) digits nines down up
    else Ok (Found digits digit num weight nines)
  end.

(** The adjustment of the last digit, 543-557; [whole] is eps isInteger. *)
Definition adjustment (whole : bool) (eps : Q) (f : found) : Z :=
  let eps := (if whole then eps / inject_Z 2 else eps)%Q in
  let half := (eps / inject_Z 2)%Q in
  let adjust := 0 in
  let adjust :=
    if (digit f <=? 5) && qlt (num f + inject_Z (digit f) * weight f) half then - digit f else adjust in
  let adjust :=
    if (5 <? digit f) && qlt (- half) (num f + inject_Z (digit f - 10) * weight f) then 10 - digit f else adjust in
  if (adjust =? 0) && (0 <? digit f)
  then
    let d := (num f - weight f)%Q in
    let d := (if qlt d 0 then - d else d)%Q in
    if qlt d (num f) then 1 else adjust
  else adjust.

(** printString of the digits (C11): decimal digits, the most
    significant first ... *)
Fixpoint dec_from (fuel : nat) (n : Z) (acc : list Z) : list Z :=
  match fuel with
  | O => acc
  | S fuel => if n <? 10 then n :: acc else dec_from fuel (n / 10) (n mod 10 :: acc)
  end.
Definition dec (n : Z) : list Z := dec_from (S (Z.to_nat (Z.log2 n))) n [].
(** ... without the zeros at the end (findLast:, 576-580). *)
Fixpoint trim (l : list Z) : list Z :=
  match l with
  | [] => []
  | d :: l => match trim l with [] => if d =? 0 then [] else [d] | t => d :: t end
  end.

(** The zeros of 564-574 ... *)
Definition zeros (n : Z) : list token :=
  if 0 <? n then Dg 0 :: Dot :: repeat (Dg 0) (Z.to_nat (n - 1)) else [].
(** ... and the integer part, 582-589: so many digits and zeros, and the digits
    that remain. *)
Fixpoint int_part (n : nat) (ds : list Z) : list token * list Z :=
  match n with
  | O => ([], ds)
  | S n =>
    let (t, r) := int_part n (tl ds) in
    (match ds with [] => Dg 0 | d :: _ => Dg d end :: t, r)
  end.

(** 559-606: the text for digits and an exponent *)
Definition layout (small exponential : bool) (digits exponent : Z) : list token :=
  let lead := small && negb exponential && (0 <? 1 - exponent) in
  let pre := if lead then zeros (1 - exponent) else [] in
  let exponent := if lead then 1 else exponent in
  let n := if exponential then 1 else Z.max 1 exponent in
  let (int, rest) := int_part (Z.to_nat n) (trim (dec digits)) in
  let frac :=
    match rest with
    | [] => if lead then [] else [Dot; Dg 0]
    | _ => (if lead then [] else [Dot]) ++ map Dg rest
    end in
  pre ++ int ++ frac
  ++ if exponential
     then
       let x := exponent - 1 in
       Letter :: (if x <? 0 then [Minus] else []) ++ map Dg (dec (Z.abs x))
     else [].

Definition print_float (k : kind) (negative : bool) (m e : Z) : outcome (list token) :=
  let p := bits k in
  let exponential := p <? Z.abs e in
  let x := exact k m e in
  let small := qlt x 1 in
  olet l := floor_log (Z.to_nat (Z.abs e) + 3) x in
  let exponent := l + 1 in
  let eps := qpow 2 (e - p + 1) in
  olet f := digit_loop (Z.to_nat p + 2) eps x (qpow 10 (exponent - 1)) 0 true true true in
  let adjust := adjustment (0 <=? e - p + 1) eps f in
  let exponent := if (0 <? adjust) && all_nines f then exponent + 1 else exponent in
  Ok ((if negative then [Minus] else []) ++ layout small exponential (digits f + adjust) exponent).
