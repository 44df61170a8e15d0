(** LargeInteger arithmetic: libgst/mpz.c and the VMpr_LargeInteger_* primitives
    of libgst/prims.def:417-1354, on a 64-bit little-endian machine with GMP 5 or
    later.

    The mpn_* functions of GMP are not modelled: they are represented by their
    documented result on the value of the limb arrays, and by [UB] when their
    documented precondition is not met.  Memory allocation is not modelled.  Sizes
    are not reduced to the range of the C type int (objects of 2^34 bytes or more). *)
From Verif Require Import Base Digits IntRep.

(** mp_limb_t is 64 bits wide (libgst/mpz.h:37-46 with SIZEOF_MP_LIMB_T = 8). *)
Definition LB : Z := 2 ^ 64.

(** gst_mpz, libgst/mpz.h:37-46: the sign of [size] and the |size| limbs at [d]. A
    size of zero has no sign. *)
Record mpz := mk_mpz { m_neg : bool; m_limbs : list Z }.
Definition mk (neg : bool) (l : list Z) : mpz :=
  match l with [] => mk_mpz false [] | _ => mk_mpz neg l end.

(** Last limb (0 if there is none). *)
Definition top (l : list Z) : Z := last l 0.

(** "size -= d[size - 1] == 0" *)
Definition strip1 (l : list Z) : list Z :=
  if top l =? 0 then removelast l else l.

(** The loops that drop all the leading zero limbs, e.g. libgst/mpz.c:1721-1722. *)
Fixpoint strip (l : list Z) : list Z :=
  match l with
  | [] => []
  | x :: r => match strip r with
              | [] => if x =? 0 then [] else [x]
              | r' => x :: r'
              end
  end.

(** ** GMP contracts *)

(** mpn_add, mpn_add_1: same size as the first operand, and the carry. *)
Definition mpn_add (u v : list Z) : list Z * Z :=
  let s := dval LB u + dval LB v in
  (to_digits LB (length u) s, s / LB ^ Z.of_nat (length u)).
Definition mpn_add_1 (u : list Z) (x : Z) : list Z * Z :=
  let s := dval LB u + x in
  (to_digits LB (length u) s, s / LB ^ Z.of_nat (length u)).
(** mpn_sub, mpn_sub_1: same size as the first operand, and the borrow. *)
Definition mpn_sub (u v : list Z) : list Z * bool :=
  let s := dval LB u - dval LB v in (to_digits LB (length u) s, s <? 0).
Definition mpn_sub_1 (u : list Z) (x : Z) : list Z * bool :=
  let s := dval LB u - x in (to_digits LB (length u) s, s <? 0).
(** mpn_mul: the size is the sum of the sizes; neither may be empty. *)
Definition mpn_mul (u v : list Z) : outcome (list Z) :=
  match u, v with
  | [], _ | _, [] => UB
  | _, _ => Ok (to_digits LB (length u + length v) (dval LB u * dval LB v))
  end.
(** mpn_tdiv_qr: the most significant limb of the divisor must be non-zero, the
    dividend at least as long as the divisor. *)
Definition mpn_tdiv_qr (n d : list Z) : outcome (list Z * list Z) :=
  if (top d =? 0) || (length n <? length d)%nat then UB
  else Ok (to_digits LB (length n - length d + 1) (dval LB n / dval LB d),
           to_digits LB (length d) (dval LB n mod dval LB d)).
(** mpn_divrem_1 with no fraction limbs: quotient and remainder. *)
Definition mpn_divrem_1 (n : list Z) (d : Z) : outcome (list Z * Z) :=
  if d =? 0 then UB
  else Ok (to_digits LB (length n) (dval LB n / d), dval LB n mod d).
(** mpn_divexact: only defined if the division is exact. *)
Definition mpn_divexact (n d : list Z) : outcome (list Z) :=
  if (top d =? 0) || (length n <? length d)%nat || negb (dval LB n mod dval LB d =? 0) then UB
  else Ok (to_digits LB (length n - length d + 1) (dval LB n / dval LB d)).
(** mpn_rshift, mpn_lshift: by 1 to 63 bits. *)
Definition mpn_rshift (u : list Z) (c : Z) : list Z :=
  to_digits LB (length u) (dval LB u / 2 ^ c).
Definition mpn_lshift (u : list Z) (c : Z) : list Z * Z :=
  (to_digits LB (length u) (dval LB u * 2 ^ c), dval LB u * 2 ^ c / LB ^ Z.of_nat (length u)).
(** mpn_gcd_1: both operands must be non-zero. *)
Definition mpn_gcd_1 (u : list Z) (x : Z) : outcome Z :=
  if (dval LB u =? 0) || (x =? 0) then UB else Ok (Z.gcd (dval LB u) x).
(** mpn_gcd: the second operand must be odd, its top limb non-zero, and it must not
    have more bits than the first; the result has the size of the smaller
    without leading zeros. *)
Definition mpn_gcd (u v : list Z) : outcome (list Z) :=
  if (top v =? 0) || Z.even (dval LB v) || (Z.log2 (dval LB u) <? Z.log2 (dval LB v)) then UB
  else Ok (strip (to_digits LB (length v) (Z.gcd (dval LB u) (dval LB v)))).
(** mpn_scan1 from bit 0: the index of the lowest set bit. *)
Fixpoint ctz (p : positive) : Z :=
  match p with xO q => 1 + ctz q | _ => 0 end.
Definition mpn_scan1 (u : list Z) : outcome Z :=
  match dval LB u with Zpos p => Ok (ctz p) | _ => UB end.

(** ** mpz.c *)

(** gst_mpz_sub_ui: libgst/mpz.c:78-131. *)
Definition mpz_sub_ui (m : mpz) (sub : Z) : outcome mpz :=
  let l := m_limbs m in
  if sub =? 0 then Ok m
  else match l with
  | [] => Ok (mk true [sub])
  | _ =>
    if m_neg m then
      let (r, cy) := mpn_add_1 l sub in
      Ok (mk true (r ++ if cy =? 0 then [] else [1]))
    else if (length l =? 1)%nat && (top l <? sub) then
      let (r, b) := mpn_sub_1 [sub] (top l) in
      if b then UB else Ok (mk true r)
    else
      let (r, b) := mpn_sub_1 l sub in
      if b then UB else Ok (mk false r)
  end.

(** _gst_mpz_add: libgst/mpz.c:140-218. *)
Definition mpz_add (u v : mpz) : outcome mpz :=
  let (u, v) := if (length (m_limbs u) <? length (m_limbs v))%nat then (v, u) else (u, v) in
  let up := m_limbs u in let vp := m_limbs v in
  if Bool.eqb (m_neg u) (m_neg v) then
    let (r, cy) := mpn_add up vp in
    Ok (mk (m_neg u) (r ++ if cy =? 0 then [] else [1]))
  else if (length up =? length vp)%nat && (dval LB up <? dval LB vp) then
    let (r, b) := mpn_sub vp up in if b then UB else Ok (mk (m_neg v) r)
  else
    let (r, b) := mpn_sub up vp in if b then UB else Ok (mk (m_neg u) r).

(** _gst_mpz_sub: libgst/mpz.c:802-876; "vsize = -v->size" makes the difference. *)
Definition mpz_sub (u v : mpz) : outcome mpz :=
  mpz_add u (mk (negb (m_neg v)) (m_limbs v)).

(** _gst_mpz_cmp: libgst/mpz.c:220-238; only the sign of the result is kept. *)
Definition msize (m : mpz) : Z :=
  let n := Z.of_nat (length (m_limbs m)) in if m_neg m then - n else n.
Definition mpz_cmp (u v : mpz) : Z :=
  if msize u =? msize v then
    if m_neg u then Z.sgn (dval LB (m_limbs v) - dval LB (m_limbs u))
    else Z.sgn (dval LB (m_limbs u) - dval LB (m_limbs v))
  else Z.sgn (msize u - msize v).

(** _gst_mpz_com: libgst/mpz.c:240-300. *)
Definition mpz_com (m : mpz) : outcome mpz :=
  let l := m_limbs m in
  if m_neg m then
    let (r, b) := mpn_sub_1 l 1 in if b then UB else Ok (mk false r)
  else match l with
  | [] => Ok (mk true [1])
  | _ => let (r, cy) := mpn_add_1 l 1 in
         Ok (mk true (r ++ if cy =? 0 then [] else [cy]))
  end.

(** _gst_mpz_div_2exp: libgst/mpz.c:302-329. *)
Definition mpz_div_2exp (m : mpz) (cnt : Z) : mpz :=
  let l := skipn (Z.to_nat (cnt / 64)) (m_limbs m) in
  match l with
  | [] => mk false []
  | _ => mk (m_neg m) (strip1 (if cnt mod 64 =? 0 then l else mpn_rshift l (cnt mod 64)))
  end.

(** _gst_mpz_mul_2exp: libgst/mpz.c:738-783. *)
Definition mpz_mul_2exp (m : mpz) (cnt : Z) : mpz :=
  match m_limbs m with
  | [] => mk false []
  | l =>
    let z := repeat 0 (Z.to_nat (cnt / 64)) in
    if cnt mod 64 =? 0 then mk (m_neg m) (z ++ l)
    else let (r, d) := mpn_lshift l (cnt mod 64) in
         mk (m_neg m) (z ++ r ++ if d =? 0 then [] else [d])
  end.

(** _gst_mpz_tdiv_qr: libgst/mpz.c:331-399. *)
Definition mpz_tdiv_qr (n d : mpz) : outcome (mpz * mpz) :=
  if (length (m_limbs n) <? length (m_limbs d))%nat then Ok (mk false [], n)
  else
    olet (q, r) := mpn_tdiv_qr (m_limbs n) (m_limbs d) in
    Ok (mk (xorb (m_neg n) (m_neg d)) (strip1 q), mk (m_neg n) r).

(** _gst_mpz_tdiv_q_ui: libgst/mpz.c:401-436. *)
Definition mpz_tdiv_q_ui (n : mpz) (d : Z) : outcome mpz :=
  match m_limbs n with
  | [] => Ok (mk false [])
  | l => olet (q, _) := mpn_divrem_1 l d in Ok (mk (m_neg n) (strip1 q))
  end.

(** _gst_mpz_tdiv_qr_si: libgst/mpz.c:438-477. The remainder is returned as an mp_limb_t. *)
Definition mpz_tdiv_qr_si (n : mpz) (d : Z) : outcome (mpz * Z) :=
  match m_limbs n with
  | [] => Ok (mk false [], 0)
  | l => olet (q, r) := mpn_divrem_1 l (Z.abs d) in
         Ok (mk (xorb (m_neg n) (d <? 0)) (strip1 q), uwrap64 (if m_neg n then - r else r))
  end.

(** _gst_mpz_fdiv_qr: libgst/mpz.c:618-649. *)
Definition mpz_fdiv_qr (n d : mpz) : outcome (mpz * mpz) :=
  olet (q, r) := mpz_tdiv_qr n d in
  if Bool.eqb (m_neg n) (m_neg d) then Ok (q, r)
  else match m_limbs r with
  | [] => Ok (q, r)
  | _ => olet q' := mpz_sub_ui q 1 in
         olet r' := mpz_add r d in Ok (q', r')
  end.

(** _gst_mpz_fdiv_qr_si: libgst/mpz.c:651-667. *)
Definition mpz_fdiv_qr_si (n : mpz) (d : Z) : outcome (mpz * Z) :=
  olet (q, r) := mpz_tdiv_qr_si n d in
  if xorb (m_neg n) (d <? 0) && negb (r =? 0) then
    olet q' := mpz_sub_ui q 1 in Ok (q', uwrap64 (r + d))
  else Ok (q, r).

(** _gst_mpz_mul: libgst/mpz.c:669-736. *)
Definition mpz_mul (u v : mpz) : outcome mpz :=
  let neg := xorb (m_neg u) (m_neg v) in
  let (u, v) := if (length (m_limbs u) <? length (m_limbs v))%nat then (v, u) else (u, v) in
  olet r := mpn_mul (m_limbs u) (m_limbs v) in Ok (mk neg r).

(** gst_mpz_copy_abs: libgst/mpz.c:479-489. *)
Definition mpz_abs (m : mpz) : mpz := mk false (m_limbs m).

(** _gst_mpz_gcd: libgst/mpz.c:491-615. *)
Definition mpz_gcd (u v : mpz) : outcome mpz :=
  let up := m_limbs u in let vp := m_limbs v in
  if (length up =? 0)%nat || ((length vp =? 1)%nat && (top vp =? 1)) then Ok (mpz_abs v)
  else if (length vp =? 0)%nat || ((length up =? 1)%nat && (top up =? 1)) then Ok (mpz_abs u)
  else if (length up =? 1)%nat then olet g := mpn_gcd_1 vp (top up) in Ok (mk false [g])
  else if (length vp =? 1)%nat then olet g := mpn_gcd_1 up (top vp) in Ok (mk false [g])
  else
    let strip_low (l : list Z) : outcome (list Z * (Z * Z)) :=
      olet zb := mpn_scan1 l in
      let zl := zb / 64 in
      let zb := zb mod 64 in
      let l := skipn (Z.to_nat zl) l in
      Ok (if zb =? 0 then l else strip1 (mpn_rshift l zb), (zl, zb)) in
    olet (up, (uzl, uzb)) := strip_low up in
    olet (vp, (vzl, vzb)) := strip_low vp in
    let (gzl, gzb) :=
      if uzl >? vzl then (vzl, vzb)
      else if uzl <? vzl then (uzl, uzb)
      else (uzl, Z.min uzb vzb) in
    olet g :=
      if (length up <? length vp)%nat || ((length up =? length vp)%nat && (top up <? top vp))
      then mpn_gcd vp up else mpn_gcd up vp in
    let z := repeat 0 (Z.to_nat gzl) in
    if gzb =? 0 then Ok (mk false (z ++ g))
    else let (r, cy) := mpn_lshift g gzb in
         Ok (mk false (z ++ r ++ if cy =? 0 then [] else [cy])).

(** _gst_mpz_divexact with GMP 5 or later: libgst/mpz.c:1512-1594. *)
Definition mpz_divexact (n d : mpz) : outcome mpz :=
  let np := m_limbs n in let dp := m_limbs d in
  if (length np =? 0)%nat || ((length np =? 1)%nat && (top np =? 0)) then Ok (mk false [])
  else if (length dp =? 1)%nat then
    olet q := mpz_tdiv_q_ui n (top dp) in Ok (mk (xorb (m_neg q) (m_neg d)) (m_limbs q))
  else olet q := mpn_divexact np dp in Ok (mk (xorb (m_neg n) (m_neg d)) q).

(** Limb by limb, on the limbs both have. *)
Fixpoint zipw (f : Z -> Z -> Z) (a b : list Z) : list Z :=
  match a, b with x :: a, y :: b => f x y :: zipw f a b | _, _ => [] end.
(** The same, followed by a copy of the rest of the first / of either. *)
Fixpoint zip1 (f : Z -> Z -> Z) (a b : list Z) : list Z :=
  match a, b with x :: a, y :: b => f x y :: zip1 f a b | a, _ => a end.
Fixpoint zip2 (f : Z -> Z -> Z) (a b : list Z) : list Z :=
  match a, b with x :: a, y :: b => f x y :: zip2 f a b | [], b => b | a, [] => a end.

Definition sub1 (l : list Z) : list Z := fst (mpn_sub_1 l 1).
(** mpn_add_1 by one, with the carry stored in a new limb. *)
Definition add1 (l : list Z) : list Z :=
  let (r, cy) := mpn_add_1 l 1 in r ++ if cy =? 0 then [] else [cy].

(** _gst_mpz_and: libgst/mpz.c:928-1118. *)
Definition mpz_and (a b : mpz) : mpz :=
  match m_neg a, m_neg b with
  | false, false => mk false (strip (zipw Z.land (m_limbs a) (m_limbs b)))
  | true, true => mk true (add1 (zip2 Z.lor (sub1 (m_limbs a)) (sub1 (m_limbs b))))
  | _, _ =>
    let (a, b) := if m_neg a then (b, a) else (a, b) in
    let op2 := sub1 (m_limbs b) in
    if (length op2 <? length (m_limbs a))%nat then mk false (zip1 Z.ldiff (m_limbs a) op2)
    else mk false (strip (zipw Z.ldiff (m_limbs a) op2))
  end.

(** _gst_mpz_ior: libgst/mpz.c:1120-1328. *)
Definition mpz_ior (a b : mpz) : mpz :=
  match m_neg a, m_neg b with
  | false, false => mk false (zip2 Z.lor (m_limbs a) (m_limbs b))
  | true, true =>
    let n := Nat.min (length (m_limbs a)) (length (m_limbs b)) in
    match strip (zipw Z.land (sub1 (firstn n (m_limbs a))) (sub1 (firstn n (m_limbs b)))) with
    | [] => mk true [1]
    | r => mk true (add1 r)
    end
  | _, _ =>
    let (a, b) := if m_neg a then (b, a) else (a, b) in
    let op2 := strip1 (sub1 (m_limbs b)) in
    let r := if (length op2 <=? length (m_limbs a))%nat
             then strip (zipw Z.ldiff op2 (m_limbs a))
             else zip1 Z.ldiff op2 (m_limbs a) in
    match r with [] => mk true [1] | r => mk true (add1 r) end
  end.

(** _gst_mpz_xor: libgst/mpz.c:1330-1506. *)
Definition mpz_xor (a b : mpz) : mpz :=
  match m_neg a, m_neg b with
  | false, false => mk false (zip2 Z.lxor (m_limbs a) (m_limbs b))
  | true, true => mk false (zip2 Z.lxor (sub1 (m_limbs a)) (sub1 (m_limbs b)))
  | _, _ =>
    let (a, b) := if m_neg a then (b, a) else (a, b) in
    mk true (add1 (zip2 Z.lxor (m_limbs a) (sub1 (m_limbs b))))
  end.

(** ** Conversions *)

(** The [n] 64-bit words at the bytes [bs]. *)
Fixpoint words (n : nat) (bs : list Z) : list Z :=
  match n with
  | O => []
  | S k => dval 256 (firstn 8 bs) :: words k (skipn 8 bs)
  end.

(** Two's complement in place, libgst/mpz.c:1660-1666 and 1733-1739: copies the low
    zero limbs, negates the next, inverts the others. Runs past the end if all
    are zero. *)
Fixpoint neg_limbs (l : list Z) : outcome (list Z) :=
  match l with
  | [] => UB
  | x :: r =>
    if x =? 0 then olet r' := neg_limbs r in Ok (0 :: r')
    else Ok (uwrap64 (- x) :: map (fun y => LB - 1 - y) r)
  end.

(** "dest[-1] &= adjust": libgst/mpz.c:1626, 1688-1691. *)
Fixpoint mask_top (empty : Z) (l : list Z) : list Z :=
  match l with
  | [] => []
  | [x] => [Z.land x ((LB - 1) / 2 ^ (8 * empty))]
  | x :: r => x :: mask_top empty r
  end.

(** Unused bytes of the last word of a byte object of [n] bytes. *)
Definition padding (n : nat) : nat := ((8 - n mod 8) mod 8)%nat.

(** _gst_mpz_from_oop: libgst/mpz.c:1596-1698. [pad] are the unused bytes of the
    object (they are not initialized, libgst/dict.inl:780-787 zeroes only the
    indexed bytes). A LargeZeroInteger is treated by the same code as SmallInteger 0
    and is represented by [Small 0]. *)
Definition from_oop (i : stint) (pad : list Z) : outcome mpz :=
  match i with
  | Small z => Ok (mk_mpz (z <? 0) [uwrap64 (Z.abs z)])
  | Large neg bs =>
    let data := bs ++ pad in
    let src := words (length data / 8) data in
    match src with
    | [] => UB
    | _ =>
      olet d := (if neg then neg_limbs src else Ok src) in
      Ok (mk neg (strip1 (mask_top (Z.of_nat (padding (length bs))) d)))
    end
  end.

(** The scans of libgst/mpz.c:1756-1777: the number of bytes once the trailing
    [ext] bytes are dropped; None if all of them are [ext]. *)
Fixpoint significant (ext : Z) (l : list Z) : option nat :=
  match l with
  | [] => None
  | x :: r => match significant ext r with
              | Some n => Some (S n)
              | None => if x =? ext then None else Some 1%nat
              end
  end.

(** _gst_oop_from_mpz: libgst/mpz.c:1700-1790. *)
Definition oop_from_mpz (m : mpz) : outcome stint :=
  match strip (m_limbs m) with
  | [] => Ok (Small 0)
  | l =>
    if m_neg m then
      if (length l =? 1)%nat && (top l <=? 2 ^ 62) then Ok (Small (- top l))
      else
        olet l' := neg_limbs l in
        let bytes := flat_map (to_digits 256 8) l' in
        match significant 255 bytes with
        | None => UB
        | Some n =>
          if nth (n - 1) bytes 0 <? 128 then
            Ok (Large true (firstn n bytes ++ [255]))
          else Ok (Large true (firstn n bytes))
        end
    else if (length l =? 1)%nat && (top l <=? 2 ^ 62 - 1) then Ok (Small (top l))
    else
      let bytes := flat_map (to_digits 256 8) l in
      match significant 0 bytes with
      | None => UB
      | Some n =>
        if 128 <=? nth (n - 1) bytes 0 then
          Ok (Large false (firstn n bytes ++ [0]))
        else Ok (Large false (firstn n bytes))
      end
  end.

(** ** The primitives, libgst/prims.def:417-1354.  Each takes the receiver, the
    argument, and the unused bytes of each; [Err] is PRIM_FAILED. *)
Section prims.
  Context (a b : stint) (pa pb : list Z).

  (** VMpr_LargeInteger_plus, minus, times, bitAnd, bitOr, bitXor:
      libgst/prims.def:1215-1302, 674-716, 1005-1137. *)
  Definition prim_binary (f : mpz -> mpz -> outcome mpz) : outcome stint :=
    olet x := from_oop a pa in olet y := from_oop b pb in
    olet z := f x y in oop_from_mpz z.
  Definition prim_plus := prim_binary mpz_add.
  Definition prim_minus := prim_binary mpz_sub.
  Definition prim_times := prim_binary mpz_mul.
  Definition prim_bitAnd := prim_binary (fun x y => Ok (mpz_and x y)).
  Definition prim_bitOr := prim_binary (fun x y => Ok (mpz_ior x y)).
  Definition prim_bitXor := prim_binary (fun x y => Ok (mpz_xor x y)).

  (** VMpr_LargeInteger_eq .. ge: libgst/prims.def:417-671. *)
  Definition prim_cmp : outcome Z :=
    olet x := from_oop a pa in olet y := from_oop b pb in Ok (mpz_cmp x y).

  (** FROM_INT of an mp_limb_t *)
  Definition from_limb (r : Z) : stint := Small (wrap64 (2 * r) / 2).

  (** VMpr_LargeInteger_intDiv: libgst/prims.def:720-767. *)
  Definition prim_intDiv : outcome stint :=
    olet x := from_oop a pa in
    match b with
    | Small d => if d =? 0 then Err else olet (q, _) := mpz_fdiv_qr_si x d in oop_from_mpz q
    | _ => olet y := from_oop b pb in olet (q, _) := mpz_fdiv_qr x y in oop_from_mpz q
    end.
  (** VMpr_LargeInteger_modulo: libgst/prims.def:770-820. *)
  Definition prim_modulo : outcome stint :=
    olet x := from_oop a pa in
    match b with
    | Small d => if d =? 0 then Err else olet (_, r) := mpz_fdiv_qr_si x d in Ok (from_limb r)
    | _ => olet y := from_oop b pb in olet (_, r) := mpz_fdiv_qr x y in oop_from_mpz r
    end.
  (** VMpr_LargeInteger_quo: libgst/prims.def:870-917. *)
  Definition prim_quo : outcome stint :=
    olet x := from_oop a pa in
    match b with
    | Small d => if d =? 0 then Err else olet (q, _) := mpz_tdiv_qr_si x d in oop_from_mpz q
    | _ => olet y := from_oop b pb in olet (q, _) := mpz_tdiv_qr x y in oop_from_mpz q
    end.
  (** VMpr_LargeInteger_rem: libgst/prims.def:920-970. *)
  Definition prim_rem : outcome stint :=
    olet x := from_oop a pa in
    match b with
    | Small d => if d =? 0 then Err else olet (_, r) := mpz_tdiv_qr_si x d in Ok (from_limb r)
    | _ => olet y := from_oop b pb in olet (_, r) := mpz_tdiv_qr x y in oop_from_mpz r
    end.
  (** VMpr_LargeInteger_divExact: libgst/prims.def:823-868. *)
  Definition prim_divExact : outcome stint :=
    olet x := from_oop a pa in
    match b with
    | Small d => if d =? 0 then Err else olet (q, _) := mpz_tdiv_qr_si x d in oop_from_mpz q
    | _ => olet y := from_oop b pb in olet q := mpz_divexact x y in oop_from_mpz q
    end.
  (** VMpr_LargeInteger_negated: libgst/prims.def:973-1002. *)
  Definition prim_negated : outcome stint :=
    olet x := from_oop a pa in
    olet z := mpz_sub (mk false []) x in oop_from_mpz z.
  (** VMpr_LargeInteger_bitInvert: libgst/prims.def:1140-1168. *)
  Definition prim_bitInvert : outcome stint :=
    olet x := from_oop a pa in olet z := mpz_com x in oop_from_mpz z.
  (** VMpr_LargeInteger_bitShift: libgst/prims.def:1171-1212. The count is
      converted to int; negating INT_MIN is undefined. *)
  Definition prim_bitShift : outcome stint :=
    match b with
    | Small c =>
      let n := wrap32 c in
      olet x := from_oop a pa in
      if n >? 0 then oop_from_mpz (mpz_mul_2exp x n)
      else if n =? - 2 ^ 31 then UB
      else oop_from_mpz (mpz_div_2exp x (- n))
    | _ => Err
    end.
  (** VMpr_LargeInteger_gcd: libgst/prims.def:1305-1354. *)
  Definition prim_gcd : outcome stint :=
    olet x := from_oop a pa in olet y := from_oop b pb in
    olet z := match a, b with
              | Small 0, _ | _, Small 0 => mpz_add x y
              | _, _ => mpz_gcd x y
              end in
    oop_from_mpz z.
End prims.
