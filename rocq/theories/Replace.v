(** The primitive behind replaceFrom:to:with:startingAt: of Array, String, ByteArray and OrderedCollection,
    libgst/prims.def:3354-3422. *)
From Verif Require Import Base.

Section Replace.
  Context {A : Type}.
  (** Addition of two C ints: overflow is undefined. *)
  Definition int_add (a b : Z) : outcome Z :=
    if (- 2 ^ 31 <=? a + b) && (a + b <? 2 ^ 31) then Ok (a + b) else UB.
  (** x << size for an int: undefined if the result does not fit (libgst/prims.def:3411-3413). *)
  Definition int_shl (x size : Z) : outcome Z :=
    if (0 <=? x) && (x * 2 ^ size <? 2 ^ 31) then Ok (x * 2 ^ size) else UB.
  (** memmove between two objects (libgst/prims.def:3409-3414), in elements instead of bytes; leaving either
      object is undefined. *)
  Definition memmove (dst : list A) (d : Z) (src : list A) (s n : Z) : outcome (list A) :=
    if (0 <=? d) && (d + n <=? Z.of_nat (length dst)) && (0 <=? s) && (s + n <=? Z.of_nat (length src))
    then Ok (firstn (Z.to_nat d) dst ++ firstn (Z.to_nat n) (skipn (Z.to_nat s) src) ++ skipn (Z.to_nat (d + n)) dst)
    else UB.
  (** The primitive for SmallInteger arguments and compatible objects of elements of 2 ^ size bytes; None is
      PRIM_FAILED. TO_INT answers 62 bits, of which the int variables (line 3357) keep 32. *)
  Definition prim_replace (size : Z) (dst : list A) (start stop : Z) (src : list A) (from : Z) : outcome (option (list A)) :=
    let dend := wrap32 stop in
    let dstart := wrap32 start in
    let sidx := wrap32 from in
    let dlen := wrap32 (Z.of_nat (length dst)) in
    let slen := wrap32 (Z.of_nat (length src)) in
    olet n := int_add dend (- dstart) in
    olet n := int_add n 1 in
    if n <? 0 then Ok None
    else if dlen <? dend then Ok None
    else if dstart <=? 0 then Ok None
    else
      olet e := int_add sidx n in
      olet e := int_add e (-1) in
      if slen <? e then Ok None
      else if (sidx <=? 0) && (0 <? n) then Ok None
      else if 0 <? n then
        olet db := int_shl (dstart - 1) size in
        olet sb := int_shl (sidx - 1) size in
        olet nb := int_shl n size in
        olet l := memmove dst (db / 2 ^ size) src (sb / 2 ^ size) (nb / 2 ^ size) in Ok (Some l)
      else Ok (Some dst).

  (** The same with exact integers. For indices that fit in an int both agree (see C46_partial); the
      collections modelled elsewhere use this one. *)
  Definition replace_range (dst : list A) (start stop : Z) (src : list A) (from : Z) : option (list A) :=
    let n := stop - start + 1 in
    if (n <? 0) || (Z.of_nat (length dst) <? stop) || (start <=? 0) || (Z.of_nat (length src) <? from + n - 1) ||
       ((from <=? 0) && (0 <? n)) then None
    else Some (firstn (Z.to_nat (start - 1)) dst ++ firstn (Z.to_nat n) (skipn (Z.to_nat (from - 1)) src) ++
               skipn (Z.to_nat stop) dst).
End Replace.
