(** ScaledDecimals (kernel/ScaledDec.st), and their literals (libgst/lex.c). *)
From Verif Require Import Base IntMath IntPrint IntPrintSpec IntRep SmallInt Lex Fraction.
Local Open Scope Z_scope.

(** The instance variables, kernel/ScaledDec.st:36-37; the fraction is always an
    instance of Fraction, since setFraction:scale: is only sent with the answer of
    asFraction (kernel/ScaledDec.st:43-52). *)
Record sd := SD { num : Z; den : Z; scale : Z }.
Definition fraction (x : sd) : rat := RFrac (num x) (den x).

(** ScaledDecimal class>>newFromNumber:scale:, kernel/ScaledDec.st:43-52 *)
Definition sd_new (r : rat) (s : Z) : sd := let (n, d) := as_frac r in SD n d s.
(** ScaledDecimal>>coerce: an Integer, kernel/ScaledDec.st:137-143 *)
Definition sd_coerce (x : sd) (z : Z) : sd := sd_new (RInt z) (scale x).

(** + and -, kernel/ScaledDec.st:152-172; [sgn] is 1 or -1 *)
Definition sd_plus (sgn : Z) (x y : sd) : outcome sd :=
  olet r := rat_plus sgn (fraction x) (fraction y) in Ok (sd_new r (Z.max (scale x) (scale y))).
(** *, kernel/ScaledDec.st:174-183; [same]: the two fractions are the same object *)
Definition sd_times (same : bool) (x y : sd) : outcome sd :=
  olet r := rat_times same (fraction x) (fraction y) in Ok (sd_new r (Z.max (scale x) (scale y))).
(** /, kernel/ScaledDec.st:185-194 *)
Definition sd_divide (x y : sd) : outcome sd :=
  olet r := rat_divide (fraction x) (fraction y) in Ok (sd_new r (Z.max (scale x) (scale y))).
(** \\, kernel/ScaledDec.st:196-206 *)
Definition sd_modulo (x y : sd) : outcome sd :=
  olet r := frac_modulo (fraction x) (fraction y) in Ok (sd_new r (Z.max (scale x) (scale y))).

(** 10 raisedToInteger: n, kernel/Number.st:914-933, for n that is not negative *)
Definition ten_to (n : Z) : Z := 10 ^ n.
(** asFraction, kernel/ScaledDec.st:126-135 *)
Definition sd_as_fraction (x : sd) : outcome rat :=
  let d := ten_to (scale x) in
  let n := Z.quot (num x * d) (den x) in
  olet g := int_gcd n d in
  olet n := div_exact n g in olet d := div_exact d g in mk_frac n d.

(** //, kernel/ScaledDec.st:208-214: the receiver is a Fraction, which is more
    general than a ScaledDecimal (kernel/Fraction.st:173-179, 209-221, and
    kernel/Number.st:255-261, 379-389) *)
Definition sd_intdiv (x y : sd) : outcome Z :=
  olet f := sd_as_fraction y in frac_intdiv (fraction x) f.
(** the sum with a Fraction, for the same reason a Fraction
    (kernel/ScaledDec.st:152-161, kernel/Number.st:336-346) *)
Definition sd_plus_fraction (sgn : Z) (x : sd) (f : rat) : outcome rat :=
  olet r := sd_as_fraction x in rat_plus sgn r f.

(** compare:, kernel/ScaledDec.st:336-344 *)
Definition sd_compare (x y : sd) : outcome Z :=
  olet d := rat_plus (-1) (fraction x) (fraction y) in
  olet m := rat_times false d (RInt (ten_to (Z.min (scale x) (scale y)))) in
  rat_rounded m.
(** <, <=, >, >=, = and ~=, kernel/ScaledDec.st:216-270, between ScaledDecimals *)
Definition sd_rel (rel : Z -> Z -> bool) (x y : sd) : outcome bool :=
  olet c := sd_compare x y in Ok (rel c 0).
Definition sd_eq (x y : sd) : outcome bool := sd_rel Z.eqb x y.

(** zero, negative, negated, abs and floor, kernel/ScaledDec.st:61-66,
    kernel/Number.st:580-585, 671-683, 943-956 *)
Definition sd_zero (x : sd) : sd := sd_new (RInt 0) (scale x).
Definition sd_negative (x : sd) : outcome bool := sd_rel Z.ltb x (sd_zero x).
Definition sd_negated (x : sd) : outcome sd := sd_plus (-1) (sd_zero x) x.
Definition sd_abs (x : sd) : outcome sd :=
  olet p := sd_rel Z.gtb x (sd_zero x) in if p then Ok x else sd_negated x.
(** truncated and ceiling, kernel/ScaledDec.st:82-96 *)
Definition sd_truncated (x : sd) : Z := rat_truncated (fraction x).
Definition sd_ceiling (x : sd) : Z := rat_ceiling (fraction x).
Definition sd_floor (x : sd) : outcome Z :=
  let t := sd_truncated x in
  olet p := sd_rel Z.geb x (sd_zero x) in
  if p then Ok t else
  olet e := sd_eq x (sd_coerce x t) in
  if e then Ok t else Ok (t - 1).

(** fractionPart of a Fraction or an Integer, kernel/Number.st:467-473,
    kernel/Fraction.st:332-337 *)
Definition rat_fraction_part (r : rat) : outcome rat :=
  match r with
  | RInt z => Ok (RInt 0)
  | RFrac n d => rat_plus (-1) r (RFrac (rat_truncated r) 1)
  end.
(** the loop of displayOn:, kernel/ScaledDec.st:292-295 *)
Fixpoint sd_digits (n : nat) (r : rat) : outcome (list Z) :=
  match n with
  | O => Ok []
  | S k =>
    olet r := rat_times false r (RInt 10) in
    olet f := rat_fraction_part r in
    olet l := sd_digits k f in
    Ok (ascii_digit (rat_truncated r) :: l)
  end.
(** abs of a Fraction, kernel/Number.st:671-676 *)
Definition frac_abs (n d : Z) : outcome rat :=
  if Fraction.compare n d 0 1 >? 0 then Ok (RFrac n d) else rat_negated (RFrac n d).
(** displayOn:, kernel/ScaledDec.st:279-296; self < 0 coerces and subtracts
    (kernel/Number.st:289-304) *)
Definition sd_display (x : sd) : outcome (list Z) :=
  olet delta := sd_plus (-1) x (sd_coerce x 0) in
  olet neg := sd_negative delta in
  olet a := frac_abs (num x) (den x) in
  olet i := print_string (rat_truncated a) 10 in
  if scale x =? 0 then Ok ((if neg then [45] else []) ++ i) else
  olet f := rat_fraction_part a in
  olet l := sd_digits (Z.to_nat (scale x)) f in
  Ok ((if neg then [45] else []) ++ i ++ 46 :: l).
(** printOn: and storeOn:, kernel/ScaledDec.st:298-305, 321-326 *)
Definition sd_print (x : sd) : outcome (list Z) :=
  olet s := sd_display x in
  olet n := print_string (scale x) 10 in Ok (s ++ 115 :: n).

(** Integer>>asScaledDecimal:radix:scale:, kernel/Number.st:211-219, with
    10 raisedToInteger: - k (kernel/Number.st:914-933, kernel/Fraction.st:502-511) *)
Definition scaled_literal (n k s : Z) : outcome sd :=
  olet p := (if k =? 0 then Ok (RInt 1) else frac_power 1 10 k) in
  olet r := rat_times false (RFrac n 1) p in
  Ok (sd_new r s).
(** scan_number for decimal digits, a full stop and digits, s and digits;
    libgst/lex.c:763-768, 794-868, scan_fraction 991-1035, which goes on where
    scan_digits stopped.  Literals in another base, without digits after the s, or
    that are no ScaledDecimals, are [Err] here. *)
Definition scan_scaled (s : list Z) : outcome (sd * list Z) :=
  olet (r, s) := scan_digits false false 10 s in
  let '(r, k, s) :=
    match s with
    | c :: d :: t =>
      if (c =? 46) && is_base_digit d 10 then
        let '(q, u) := scan_loop false 10 (d :: t) r in
        (q, Z.of_nat (length (sc_digits q)) - Z.of_nat (length (sc_digits r)), u)
      else (r, 0, s)
    | _ => (r, 0, s)
    end in
  match s with
  | c :: t =>
    if c =? 115 then
      match t with
      | d :: _ =>
        if is_dec d then
          olet (e, u) := scan_digits false false 10 t in
          olet n := (if sc_large r
                     then olet o := scan_large_integer false 10 (sc_digits r) in Ok (st_val o)
                     else Ok (to_int (from_int (wrap64 (sc_int r))))) in
          olet x := scaled_literal n k (wrap32 (sc_int e)) in
          Ok (x, u)
        else Err
      | [] => Err
      end
    else Err
  | [] => Err
  end.
(** a literal with or without a minus sign, libgst/gst-parse.c:1743-1752,
    _gst_negate_yylval, libgst/lex.c:1353-1364: sign and negated are
    kernel/Number.st:601-608, 678-683 *)
Definition read_scaled (s : list Z) : outcome (sd * list Z) :=
  match s with
  | c :: t =>
    if c =? 45 then
      olet (x, u) := scan_scaled t in
      olet neg := sd_negative x in
      if neg then Err else
      olet y := sd_negated x in Ok (y, u)
    else scan_scaled s
  | [] => Err
  end.
