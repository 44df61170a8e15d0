(** SmallInteger arithmetic of the virtual machine (64-bit build). *)
From Verif Require Import Base.

(** ** Tagging: libgst/gstpriv.h:496-508 and IS_INT, libgst/gst.h:165-172 *)

(** An OOP is the signed value of its 64-bit word. libgst/gst.h (typedef struct oop_s *OOP). *)
Definition oop := Z.

(** TO_INT(oop) = (intptr_t)(oop) >> 1; libgst/gstpriv.h:496-497. *)
Definition to_int (w : oop) : Z := Z.shiftr w 1.

(** FROM_INT(i) = ((intptr_t)(i) << 1) + 1; libgst/gstpriv.h:499-500. The shift
    drops the top bit, as GCC defines it. *)
Definition from_int (i : Z) : oop := wrap64 (wrap64 (Z.shiftl i 1) + 1).

(** IS_INT(oop) tests the low bit; libgst/gst.h:166-167. *)
Definition is_int (w : oop) : bool := Z.odd w.

(** ST_INT_SIZE, MAX_ST_INT, MIN_ST_INT; libgst/gstpriv.h:502-504. *)
Definition st_int_size : Z := 62.
Definition max_st_int : Z := Z.shiftl 1 st_int_size - 1.
Definition min_st_int : Z := Z.lnot max_st_int.

(** INT_OVERFLOW(i) = ((i) ^ ((i) << 1)) < 0; libgst/gstpriv.h:505. *)
Definition int_overflow (i : Z) : bool := Z.lxor i (wrap64 (Z.shiftl i 1)) <? 0.

(** ** Checked operations of libgst/interp.inl *)

(** add_with_check, x86 path (add; seto): libgst/interp.inl:116-127. The
    overflow flag is set iff the exact sum is not a 64-bit signed value. *)
Definition add_with_check (op1 op2 : oop) : oop * bool :=
  let iop2 := wrap64 (op2 - 1) in
  let r := wrap64 (op1 + iop2) in
  (r, negb (r =? op1 + iop2)).

(** add_with_check, portable path: libgst/interp.inl:128-133. *)
Definition add_with_check_c (op1 op2 : oop) : oop * bool :=
  let r := wrap64 (op1 + wrap64 (op2 - 1)) in
  (r, (Z.lxor op1 op2 >=? 0) && (Z.lxor op1 r <? 0)).

(** sub_with_check, x86 path: libgst/interp.inl:138-149. *)
Definition sub_with_check (op1 op2 : oop) : oop * bool :=
  let iop2 := wrap64 (op2 - 1) in
  let r := wrap64 (op1 - iop2) in
  (r, negb (r =? op1 - iop2)).

(** sub_with_check, portable path: libgst/interp.inl:150-155. *)
Definition sub_with_check_c (op1 op2 : oop) : oop * bool :=
  let r := wrap64 (op1 - wrap64 (op2 - 1)) in
  (r, (Z.lxor op1 op2 <? 0) && (Z.lxor op1 r <? 0)).

(** mul_with_check with the GCC overflow builtins: libgst/interp.inl:160-183. *)
Definition mul_with_check (op1 op2 : oop) : oop * bool :=
  let a := to_int op1 in
  let b := to_int op2 in
  let result := wrap64 (a * b) in
  if negb (result =? a * b) then (from_int 0, true)
  else if (result <? min_st_int) || (result >? max_st_int) then (from_int 0, true)
  else (from_int result, false).

(** mul_with_check without the builtins and without a 128-bit intmax_t: the
    division-based check of libgst/interp.inl:184-212. *)
Definition mul_with_check_c (op1 op2 : oop) : oop * bool :=
  let a := to_int op1 in
  let b := to_int op2 in
  let result := wrap64 (a * b) in
  if ((uwrap64 (Z.lor a b) <? Z.shiftl 1 (st_int_size / 2))
      || (b =? 0)
      || (wrap64 (Z.quot result b) =? a))
     && negb (int_overflow result)
  then (from_int result, false)
  else (from_int 0, true).

(** tagged_and, tagged_or, tagged_xor: libgst/interp.inl:91-113. *)
Definition tagged_and (op1 op2 : oop) : oop := Z.land op1 op2.
Definition tagged_or (op1 op2 : oop) : oop := Z.lor op1 op2.
Definition tagged_xor (op1 op2 : oop) : oop := Z.lxor op1 (wrap64 (op2 - 1)).

(** ** Primitives of libgst/prims.def *)

(** The INT_BIN_OP macro: libgst/prims.def:83-103. *)
Definition int_bin_op (op : oop -> oop -> oop * bool) (noOverflow : bool)
    (oop1 oop2 : oop) : prim oop :=
  if is_int oop1 && is_int oop2 then
    let '(r, overflow) := op oop1 oop2 in
    if noOverflow || negb overflow then Succeeded r else Failed
  else Failed.

(** The BOOL_BIN_OP macro: libgst/prims.def:105-117. The comparison is done on
    the tagged words. *)
Definition bool_bin_op (cmp : Z -> Z -> bool) (oop1 oop2 : oop) : prim bool :=
  if is_int oop1 && is_int oop2 then Succeeded (cmp oop1 oop2) else Failed.

(** libgst/prims.def:120-176. The first argument chooses the portable C code
    path (true) or the x86 / builtin path (false). *)
Definition prim_plus (portable : bool) : oop -> oop -> prim oop :=
  int_bin_op (if portable then add_with_check_c else add_with_check) false.
Definition prim_minus (portable : bool) : oop -> oop -> prim oop :=
  int_bin_op (if portable then sub_with_check_c else sub_with_check) false.
Definition prim_times (portable : bool) : oop -> oop -> prim oop :=
  int_bin_op (if portable then mul_with_check_c else mul_with_check) false.
Definition prim_lt := bool_bin_op Z.ltb.
Definition prim_gt := bool_bin_op Z.gtb.
Definition prim_le := bool_bin_op Z.leb.
Definition prim_ge := bool_bin_op Z.geb.
Definition prim_eq := bool_bin_op Z.eqb.
Definition prim_ne := bool_bin_op (fun x y => negb (Z.eqb x y)).

(** VMpr_SmallInteger_divide: libgst/prims.def:180-206. *)
Definition prim_divide (oop1 oop2 : oop) : prim oop :=
  if is_int oop1 && is_int oop2 && negb (oop2 =? from_int 0) then
    let iarg1 := to_int oop1 in
    let iarg2 := to_int oop2 in
    let result := wrap64 (Z.quot iarg1 iarg2) in
    if iarg1 =? wrap64 (iarg2 * result) then Succeeded (from_int result) else Failed
  else Failed.

(** VMpr_SmallInteger_modulo: libgst/prims.def:208-230. *)
Definition prim_modulo (oop1 oop2 : oop) : prim oop :=
  if is_int oop1 && is_int oop2 && negb (oop2 =? from_int 0) then
    let iarg1 := to_int oop1 in
    let iarg2 := to_int oop2 in
    let result := Z.rem iarg1 iarg2 in
    Succeeded (from_int (if negb (result =? 0) && (Z.lxor result iarg2 <? 0)
                         then wrap64 (result + iarg2) else result))
  else Failed.

(** VMpr_SmallInteger_intDiv: libgst/prims.def:232-262. *)
Definition prim_int_div (oop1 oop2 : oop) : prim oop :=
  if is_int oop1 && is_int oop2 && negb (oop2 =? from_int 0) then
    let i1 := to_int oop1 in
    let i2 := to_int oop2 in
    let iarg1 := if i2 <? 0 then wrap64 (- i1) else i1 in
    let iarg2 := if i2 <? 0 then wrap64 (- i2) else i2 in
    if iarg1 <? 0
    then Succeeded (from_int (wrap64 (- Z.quot (wrap64 (iarg2 - 1 - iarg1)) iarg2)))
    else Succeeded (from_int (Z.quot iarg1 iarg2))
  else Failed.

(** VMpr_SmallInteger_quo: libgst/prims.def:264-288. *)
Definition prim_quo (oop1 oop2 : oop) : prim oop :=
  if is_int oop1 && is_int oop2 then
    let iarg1 := to_int oop1 in
    let iarg2 := to_int oop2 in
    if negb (iarg2 =? 0) then Succeeded (from_int (wrap64 (Z.quot iarg1 iarg2)))
    else Failed
  else Failed.

(** libgst/prims.def:290-309. *)
Definition prim_bit_and := int_bin_op (fun x y => (tagged_and x y, false)) true.
Definition prim_bit_or := int_bin_op (fun x y => (tagged_or x y, false)) true.
Definition prim_bit_xor := int_bin_op (fun x y => (tagged_xor x y, false)) true.

(** VMpr_SmallInteger_bitShift: libgst/prims.def:311-346; the BIT_SHIFT_SPECIAL
    opcode, libgst/vm.def:369-399, is the same code. ST_INT_SIZE is a size_t, so
    both comparisons are made on unsigned words (C's usual conversions). *)
Definition prim_bit_shift (oop1 oop2 : oop) : prim oop :=
  if is_int oop1 && is_int oop2 then
    let iarg1 := to_int oop1 in
    let iarg2 := to_int oop2 in
    if iarg2 <? 0 then
      if uwrap64 iarg2 >=? uwrap64 (- st_int_size)
      then Succeeded (from_int (Z.shiftr iarg1 (- iarg2)))
      else Succeeded (from_int (Z.shiftr iarg1 st_int_size))
    else if uwrap64 iarg2 <? st_int_size then
      let result := wrap64 (Z.shiftl iarg1 iarg2) in
      if (Z.shiftr result iarg2 =? iarg1) && negb (int_overflow result)
      then Succeeded (from_int result)
      else Failed
    else Failed
  else Failed.

(** BIT_AND_SPECIAL: libgst/vm.def:417-427. The opcode does not test the
    operands' tags, only the result's. *)
Definition op_bit_and_special (op1 op2 : oop) : prim oop :=
  let op := tagged_and op1 op2 in
  if is_int op then Succeeded op else Failed.
