(** The arithmetic on multiple-precision floating point numbers that turns the
    text of a Float literal into a Float (libgst/real.c), and what the lexer
    does with it (libgst/lex.c:751-1037, libgst/comp.c:2192-2199). *)
From Verif Require Import Base Digits.

(** ** The significands, word by word

    real.h and real.c:55-60: a significand is an array of SIGSZ = 10 unsigned
    shorts, the least significant first. *)
Definition SIGSZ : nat := 10.
Definition ELEM : Z := 65536.

(** rshift_sig, real.c:98-130, the loop of lines 108-116 when the shift is not
    by whole words (what is stored into an unsigned short is reduced modulo
    2^16) ... *)
Fixpoint lshr (r : Z) (l : list Z) : list Z :=
  match l with
  | [] => []
  | x :: t =>
    match t with
    | [] => [Z.shiftr x r]
    | y :: _ => Z.lor (Z.shiftl y (16 - r)) (Z.shiftr x r) mod ELEM :: lshr r t
    end
  end.

(** ... and the whole of it, for 0 <= delta < 160: the words that are left
    without a source become zero (lines 127-128). *)
Definition rshift_sig (l : list Z) (delta : Z) : list Z :=
  let words := Z.to_nat (delta / 16) in
  (if delta mod 16 =? 0 then skipn words l else lshr (delta mod 16) (skipn words l))
  ++ repeat 0 words.

(** add_significands, real.c:241-253: the sum and the carry. *)
Fixpoint add_sig_words (r s : list Z) (carry : Z) : list Z * Z :=
  match r, s with
  | x :: r', y :: s' =>
    let result := x + y + carry in
    let (t, c) := add_sig_words r' s' (Z.shiftr result 16) in
    (result mod ELEM :: t, c)
  | _, _ => ([], carry)
  end.

(** sub_significands, real.c:266-276. *)
Fixpoint sub_sig_words (r s : list Z) (carry : Z) : list Z :=
  match r, s with
  | x :: r', y :: s' =>
    let result := x - y + carry in
    result mod ELEM :: sub_sig_words r' s' (Z.shiftr result 16)
  | _, _ => []
  end.

(** cmp_significands, real.c:255-264, on the words from the most significant
    one down. *)
Fixpoint cmp_words (r s : list Z) : Z :=
  match r, s with
  | x :: r', y :: s' => if x =? y then cmp_words r' s' else x - y
  | _, _ => 0
  end.

Definition cmp_significands (r s : list Z) : Z := cmp_words (rev r) (rev s).

(** The shift to the left of do_div, real.c:463-465: [low] is the word below
    the first of the list. *)
Fixpoint lshl1 (low : Z) (l : list Z) : list Z :=
  match l with
  | [] => []
  | x :: t => Z.lor (Z.shiftl x 1) (Z.shiftr low 15) mod ELEM :: lshl1 x t
  end.

(** ** The numbers

    struct real, real.h: the significand (here the number its ten words write,
    the operations on words above being proved to be those on that number), the
    exponent of its most significant bit, and the sign, 0 for zero. *)
Record real := Real { sig : Z; exp : Z; sign : Z }.

Definition zero : real := Real 0 0 0.

(** NUM_SIG_BITS *)
Definition full : Z := 2 ^ 160.
Definition top : Z := 2 ^ 159.

Definition in_int (z : Z) : bool := (- 2 ^ 31 <=? z) && (z <? 2 ^ 31).

(** An exponent is an int: to go past its range is undefined. *)
Definition with_exp (s e sg : Z) : outcome real :=
  if in_int e then Ok (Real s e sg) else UB.

(** _gst_real_from_int, real.c:208-239, for 0 <= s < 65536. *)
Definition norm_step (m bits : Z) (st : Z * Z) : Z * Z :=
  let (s, e) := st in
  if Z.land s m =? 0 then (Z.shiftl s bits, e) else (s, e + bits).

Definition from_int (s : Z) : real :=
  let (s', e) := norm_step 0x8000 1 (norm_step 0xC000 2 (norm_step 0xF000 4 (norm_step 0xFF00 8 (s, 0)))) in
  Real (s' * 2 ^ 144) e 1.

(** The end of do_add, real.c:301-307: the sum of two significands with the
    same exponent; a carry costs the lowest bit. *)
Definition add_aligned (a b e sg : Z) : outcome real :=
  let u := a + b in
  if u <? full then Ok (Real u e sg)
  else with_exp (Z.lor ((u mod full) / 2) top) (e + 1) sg.

(** do_add, real.c:278-308, with adjust_exp, real.c:192-205 (its assertion is
    true of both calls). *)
Definition do_add (r s : real) : outcome real :=
  if exp r <? exp s then
    let d := exp s - exp r in
    if negb (in_int d) then UB
    else if 160 <=? d then Ok s
    else let a := sig r / 2 ^ d in
         if a =? 0 then Ok s else add_aligned a (sig s) (exp s) (sign r)
  else if exp s <? exp r then
    let d := exp r - exp s in
    if negb (in_int d) then UB
    else if 160 <=? d then Ok r
    else let b := sig s / 2 ^ d in
         if b =? 0 then Ok r else add_aligned (sig r) b (exp r) (sign r)
  else add_aligned (sig r) (sig s) (exp r) (sign r).

(** _gst_real_add_int, real.c:323-337, for 0 <= s < 65536. *)
Definition add_int (r : real) (s : Z) : outcome real :=
  if s =? 0 then Ok r
  else if sign r =? 0 then Ok (from_int s)
  else if sign r =? 1 then do_add r (from_int s)
  else Abort.

(** The loop of do_mul, real.c:353-379.  [p] is the number of the bit that
    mask and n designate; the loop goes on while a lower bit of the significand
    of s is set, which is what the comparison of n with lsb and the test of
    mask - 1 come to.  The state is the significand of r, the number of times
    its exponent was incremented, and the significand of rr. *)
Fixpoint mul_loop (s : Z) (p : nat) (a c rr : Z) : Z * Z :=
  match p with
  | O => (a, c)
  | S p' =>
    if s mod 2 ^ Z.of_nat p =? 0 then (a, c)
    else
      let rr := rr / 2 in
      if rr =? 0 then (a, c)
      else if Z.testbit s (Z.of_nat p') then
        let u := a + rr in
        if u <? full then mul_loop s p' u c rr
        else
          let a' := Z.lor ((u mod full) / 2) top in
          if rr / 2 =? 0 then (a', c + 1)
          else mul_loop s p' a' (c + 1) (rr / 2)
      else mul_loop s p' a c rr
  end.

(** do_mul, real.c:339-380; the assertion is that s is normalized. *)
Definition do_mul (r s : real) : outcome real :=
  if negb (in_int (exp r + exp s)) then UB
  else if negb (Z.testbit (sig s) 159) then Abort
  else
    let (a, c) := mul_loop (sig s) 159 (sig r) 0 (sig r) in
    with_exp a (exp r + exp s + c) (sign r * sign s).

(** _gst_real_mul, real.c:382-400 (when s is zero, r is cleared and then
    multiplied all the same). *)
Definition mul (r s : real) : outcome real :=
  if sign r =? 0 then Ok r
  else do_mul (if sign s =? 0 then zero else r) s.

(** _gst_real_mul_int, real.c:402-414. *)
Definition mul_int (r : real) (s : Z) : outcome real :=
  let r := if s =? 0 then zero else r in
  if sign r =? 0 then Ok r else do_mul r (from_int s).

(** The loop of _gst_real_powi, real.c:433-443, over the bits of the exponent. *)
Fixpoint powi_loop (k : positive) (out r : real) : outcome real :=
  match k with
  | xH => mul out r
  | xO k' => olet r2 := mul r r in powi_loop k' out r2
  | xI k' => olet out' := mul out r in olet r2 := mul r r in powi_loop k' out' r2
  end.

(** _gst_real_powi, real.c:417-444. *)
Definition powi (r : real) (s : Z) : outcome real :=
  match s with
  | Zpos k => powi_loop k (from_int 1) r
  | _ => Abort
  end.

(** The loop of do_div, real.c:459-474: [u] is r with the bit shifted out of it
    (msb) above, so that the comparison of line 468 is that of [u] with s; [n]
    bits of the quotient are still to be found. *)
Fixpoint div_loop (s : Z) (n : nat) (u v : Z) : Z :=
  match n with
  | O => v
  | S n' =>
    if s <=? u then div_loop s n' (2 * ((u - s) mod full)) (2 * v + 1)
    else div_loop s n' (2 * u) (2 * v)
  end.

(** normalize, real.c:132-188. *)
Definition normalize (v e sg : Z) : outcome real :=
  if v =? 0 then Ok zero
  else let k := 159 - Z.log2 v in with_exp (v * 2 ^ k) (e - k) sg.

(** _gst_real_div, real.c:478-504, with do_div, real.c:446-476. *)
Definition div (r s : real) : outcome real :=
  if sign s =? 0 then Abort
  else if sign r =? 0 then Ok zero
  else if negb (in_int (exp r - exp s)) then UB
  else normalize (div_loop (sig s) 160 (sig r) 0) (exp r - exp s) (sign r * sign s).

(** ** From the digits to the number

    The loops of scan_digits and of scan_fraction, lex.c:957-979 and
    1008-1031, on the values of the digits (Lex.v models how these are read). *)
Fixpoint scan (base : Z) (ds : list Z) (n : real) : outcome real :=
  match ds with
  | [] => Ok n
  | d :: t => olet a := mul_int n base in olet b := add_int a d in scan base t b
  end.

(** The integer that scan_digits returns, a uintptr_t. *)
Fixpoint scan_uint (base : Z) (ds : list Z) (acc : Z) : Z :=
  match ds with
  | [] => acc
  | d :: t => scan_uint base t (uwrap64 (uwrap64 (acc * base) + d))
  end.

(** The exponent written after e, d or q: lex.c:884-895 (no digits are written
    in the first case, a minus sign in the second).  It is truncated to an
    int. *)
Definition exponent_of (nfrac : Z) (ex : option (bool * list Z)) : Z :=
  match ex with
  | None => - nfrac
  | Some (true, ds) => - nfrac - wrap32 (scan_uint 10 ds 0)
  | Some (false, ds) => - nfrac + wrap32 (scan_uint 10 ds 0)
  end.

(** scan_number, lex.c:751-928, for a literal that is a Float: the digits
    before the point, those after it, and the exponent. *)
Definition scan_float (base : Z) (ints fracs : list Z) (ex : option (bool * list Z)) : outcome real :=
  olet n1 := scan base ints zero in
  olet num := scan base fracs n1 in
  let e := exponent_of (Z.of_nat (length fracs)) ex in
  if negb (in_int e) then UB
  else if e =? 0 then Ok num
  else if negb (in_int (Z.abs e)) then UB
  else
    olet r := powi (from_int base) (Z.abs e) in
    if e <? 0 then div num r else mul num r.

(** ** From the number to the Float

    The significand with [p] bits of a positive integer, to the nearest and to
    the even one of two equally near: how the processor rounds. *)
Definition rn (p z : Z) : Z :=
  let k := Z.log2 z + 1 - p in
  if k <=? 0 then z
  else
    let q := z / 2 ^ k in
    let r := z mod 2 ^ k in
    let half := 2 ^ (k - 1) in
    (if (r <? half) || ((r =? half) && Z.even q) then q else q + 1) * 2 ^ k.

(** _gst_real_get_ld, real.c:519-533: the words from the most significant one
    down are accumulated into a long double (the format with 64 bits of the
    x86); every addition rounds.  The result stands for that integer times
    2 ^ (exp - 159); the final ldexpl is exact, numbers out of the range of the
    exponents of the Float classes are not modelled. *)
Definition get_ld (r : real) : Z :=
  fold_left (fun acc w => rn 64 (acc * ELEM + w)) (rev (to_digits ELEM SIGSZ (sig r))) 0.

(** comp.c:2192-2199: the kinds of Floats and the conversions of the long double
    to them. *)
Inductive kind := FloatE | FloatD | FloatQ.

Definition bits (k : kind) : Z :=
  match k with FloatE => 24 | FloatD => 53 | FloatQ => 64 end.

(** The Float for a literal, as an integer and the power of two to multiply it
    with. *)
Definition float_literal (k : kind) (base : Z) (ints fracs : list Z) (ex : option (bool * list Z))
  : outcome (Z * Z) :=
  olet r := scan_float base ints fracs ex in
  Ok (rn (bits k) (get_ld r), exp r - 159).
