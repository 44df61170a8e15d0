(** Rational arithmetic: kernel/Fraction.st, SmallInteger>>/ (kernel/SmallInt.st:270-281),
    LargeInteger>>/ (kernel/LargeInt.st:387-403) and the coercions between Integers
    and Fractions (kernel/Number.st:289-389, kernel/Integer.st:448-453). *)
From Verif Require Import Base IntMath.

(** An Integer, or an instance of Fraction with its numerator and denominator
    (kernel/Fraction.st:36-37). *)
Inductive rat : Type :=
| RInt (z : Z)
| RFrac (num den : Z).

(** Fraction class>>numerator:denominator: (kernel/Fraction.st:62-67, 481-493). *)
Definition mk_frac (n d : Z) : outcome rat :=
  if d =? 0 then Err else if d <? 0 then Ok (RFrac (- n) (- d)) else Ok (RFrac n d).

(** num divExact: gcd etc., then  den = 1 ifTrue: [^num].
    ^Fraction numerator: num denominator: den  (end of the four operations). *)
Definition finish_frac (num den g : Z) : outcome rat :=
  olet num := div_exact num g in olet den := div_exact den g in
  if den =? 1 then Ok (RInt num) else mk_frac num den.

(** Fraction>>*, kernel/Fraction.st:83-102, between two Fractions; [same] is
    aNumber == self. *)
Definition frac_times (same : bool) (n1 d1 n2 d2 : Z) : outcome rat :=
  if n2 =? 0 then Ok (RFrac n2 d2)
  else if n1 =? 0 then Ok (RFrac n1 d1)
  else if same then
    if d1 * d2 =? 1 then Ok (RInt (n1 * n2)) else mk_frac (n1 * n2) (d1 * d2)
  else
    olet g1 := int_gcd n1 d2 in olet g2 := int_gcd d1 n2 in
    finish_frac (n1 * n2) (d1 * d2) (g1 * g2).

(** Fraction>>+ and -, kernel/Fraction.st:104-152; [sgn] is 1 or -1. *)
Definition frac_plus (sgn : Z) (n1 d1 n2 d2 : Z) : outcome rat :=
  olet g := int_gcd d1 d2 in
  if g =? 1 then mk_frac (n1 * d2 + sgn * (n2 * d1)) (d1 * d2)
  else
    olet e2 := div_exact d2 g in
    olet e1 := div_exact d1 g in
    let num := n1 * e2 + sgn * (n2 * e1) in
    olet den := div_exact (d1 * d2) g in
    olet g := int_gcd num den in
    finish_frac num den g.

(** Fraction>>/, kernel/Fraction.st:154-171. *)
Definition frac_divide (n1 d1 n2 d2 : Z) : outcome rat :=
  if n2 =? 0 then Err
  else if n1 =? 0 then Ok (RFrac n1 d1)
  else
    olet g1 := int_gcd n1 n2 in olet g2 := int_gcd d1 d2 in
    finish_frac (n1 * d2) (d1 * n2) (g1 * g2).

(** Fraction>>reduce, kernel/Fraction.st:464-479. *)
Definition reduce (r : rat) : outcome rat :=
  match r with
  | RInt _ => Ok r
  | RFrac n d =>
    if n =? 1 then Ok r else if d =? 1 then Ok (RInt n) else if n =? 0 then Ok (RInt 0)
    else if n =? d then Ok (RInt 1)
    else
      olet g := int_gcd n d in
      if g =? 1 then Ok r
      else if d =? g then olet q := div_exact n g in Ok (RInt q)
      else olet n := div_exact n g in olet d := div_exact d g in Ok (RFrac n d)
  end.

(** SmallInteger>>/, kernel/SmallInt.st:270-281: the primitive answers exact
    quotients that fit (theorem C02_smallint_divide). *)
Definition small_divide (a b : Z) : outcome rat :=
  if b =? 0 then Err
  else if (Z.rem a b =? 0) && is_small (Z.quot a b) then Ok (RInt (Z.quot a b))
  else olet f := mk_frac a b in reduce f.
(** LargeInteger>>/, kernel/LargeInt.st:387-403, after the coercion of a
    SmallInteger operand, which keeps its value. *)
Definition large_divide (a b : Z) : outcome rat :=
  if b =? 0 then Err
  else if a =? 0 then Ok (RInt 0)
  else
    let g := large_gcd a b in
    if g =? a then olet d := div_exact b g in mk_frac 1 d
    else if g =? b then olet q := div_exact a g in Ok (RInt q)
    else olet n := div_exact a g in olet d := div_exact b g in mk_frac n d.
Definition int_divide (a b : Z) : outcome rat :=
  if is_small a && is_small b then small_divide a b else large_divide a b.

(** Integer>>asFraction, kernel/Integer.st:448-453, and Fraction>>asExactFraction. *)
Definition as_frac (r : rat) : Z * Z := match r with RInt z => (z, 1) | RFrac n d => (n, d) end.

(** The messages, for any mix of Integers and Fractions: the Integer is coerced
    (kernel/Number.st:336-389), and then is not identical to the other operand. *)
Definition rat_plus (sgn : Z) (a b : rat) : outcome rat :=
  match a, b with
  | RInt x, RInt y => Ok (RInt (x + sgn * y))
  | _, _ => let (n1, d1) := as_frac a in let (n2, d2) := as_frac b in frac_plus sgn n1 d1 n2 d2
  end.
Definition rat_times (same : bool) (a b : rat) : outcome rat :=
  match a, b with
  | RInt x, RInt y => Ok (RInt (x * y))
  | RFrac n1 d1, RFrac n2 d2 => frac_times same n1 d1 n2 d2
  | _, _ => let (n1, d1) := as_frac a in let (n2, d2) := as_frac b in frac_times false n1 d1 n2 d2
  end.
Definition rat_divide (a b : rat) : outcome rat :=
  match a, b with
  | RInt x, RInt y => int_divide x y
  | _, _ => let (n1, d1) := as_frac a in let (n2, d2) := as_frac b in frac_divide n1 d1 n2 d2
  end.
(** Fraction>>negated, kernel/Fraction.st:495-500. *)
Definition rat_negated (a : rat) : outcome rat :=
  match a with RInt x => Ok (RInt (- x)) | RFrac n d => mk_frac (0 - n) d end.
(** Fraction>>reciprocal, kernel/Fraction.st:513-521. *)
Definition frac_reciprocal (n d : Z) : outcome rat :=
  if d <? 0 then mk_frac (- d) (- n) else mk_frac d n.
(** Fraction>>raisedToInteger:, kernel/Fraction.st:502-511, for exponents that are not
    negative: powers of Integers are exact. *)
Definition frac_power (n d e : Z) : outcome rat := mk_frac (n ^ e) (d ^ e).
(** Fraction>>squared, kernel/Fraction.st:536-542. *)
Definition frac_squared (n d : Z) : outcome rat := mk_frac (n * n) (d * d).

(** highBit of a non-negative Integer (C04). *)
Definition high_bit (z : Z) : Z := if z =? 0 then 0 else Z.log2 z + 1.
(** Fraction>>compare:, kernel/Fraction.st:300-323. *)
Definition compare (n1 d1 n2 d2 : Z) : Z :=
  if negb (Z.sgn n1 =? Z.sgn n2) then Z.sgn n1 - Z.sgn n2
  else
    let delta := high_bit (Z.abs n1) + high_bit d2 - high_bit (Z.abs n2) - high_bit d1 in
    if delta <? -1 then delta * Z.sgn n1
    else if delta >? 1 then delta * Z.sgn n1
    else Z.sgn (d2 * n1 - d1 * n2).
(** Fraction>>< between Fractions, kernel/Fraction.st:246-253; between an Integer and a
    Fraction their difference is compared with zero (kernel/Number.st:289-304). <=, >
    and >= differ by the last comparison only. *)
Definition rat_rel (rel : Z -> Z -> bool) (a b : rat) : outcome bool :=
  match a, b with
  | RInt x, RInt y => Ok (rel x y)
  | RFrac n1 d1, RFrac n2 d2 => Ok (rel (compare n1 d1 n2 d2) 0)
  | _, _ =>
    olet delta := rat_plus (-1) a b in
    match delta with
    | RInt z => Ok (rel z 0)
    | RFrac n d => Ok (rel (compare n d 0 1) 0)
    end
  end.
(** Fraction>>=, kernel/Fraction.st:282-290, and the coercions of kernel/Number.st:306-319. *)
Definition rat_eq (a b : rat) : bool :=
  match a, b with
  | RInt x, RInt y => x =? y
  | _, _ => let (n1, d1) := as_frac a in let (n2, d2) := as_frac b in (n1 =? n2) && (d1 =? d2)
  end.

(** Integer>>// for a positive divisor, with the error of the primitive shown by
    C09_floored_division_refuted. *)
Definition st_fdiv (a b : Z) : Z :=
  a / b - if negb (is_small b) && (a <? 0) && (Z.rem a b =? 0) then 1 else 0.
(** Fraction>>floor, ceiling and truncated, kernel/Fraction.st:223-244. *)
Definition rat_floor (a : rat) : Z := match a with RInt z => z | RFrac n d => st_fdiv n d end.
Definition rat_ceiling (a : rat) : Z := match a with RInt z => z | RFrac n d => st_fdiv (n + d - 1) d end.
Definition rat_truncated (a : rat) : Z := match a with RInt z => z | RFrac n d => Z.quot n d end.
(** Number>>rounded, kernel/Number.st:497-504, for a Fraction. *)
Definition rat_rounded (a : rat) : outcome Z :=
  match a with
  | RInt z => Ok z
  | RFrac n d =>
    olet half := frac_divide 1 1 2 1 in
    if n <? 0 then olet x := rat_plus (-1) a half in Ok (rat_ceiling x)
    else olet x := rat_plus 1 a half in Ok (rat_floor x)
  end.
(** Fraction>>// and \\, kernel/Fraction.st:173-186. *)
Definition frac_intdiv (a b : rat) : outcome Z := olet q := rat_divide a b in Ok (rat_floor q).
Definition frac_modulo (a b : rat) : outcome rat :=
  olet q := frac_intdiv a b in olet p := rat_times false (RInt q) b in rat_plus (-1) a p.
