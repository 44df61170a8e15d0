(** Conversions between C integers and Smalltalk Integers:
    libgst/dict.inl:1290-1580. [SIZEOF_OOP] is 8. *)
From Verif Require Import Base Digits IntRep.

Definition INT_MIN : Z := - 2 ^ 31.
Definition INT_MAX : Z := 2 ^ 31 - 1.
Definition UINT_MAX : Z := 2 ^ 32 - 1.

(** NUM_INDEXABLE_FIELDS of a LargeInteger: libgst/dict.inl:361-363, 895-913. *)
Definition nbytes (bs : list Z) : Z := Z.of_nat (length bs).

(** ba->bytes[i]. Bytes between the last indexed byte and the end of its word
    are the zero filling of the allocator. *)
Definition byte_at (bs : list Z) (i : nat) : Z := nth i bs 0.

(** is_c_int_32: libgst/dict.inl:1291-1309. *)
Definition is_c_int_32 (i : stint) : bool :=
  match i with
  | Small z => (INT_MIN <=? z) && (z <? INT_MAX)
  | Large _ bs => nbytes bs =? 4
  end.

(** is_c_uint_32: libgst/dict.inl:1311-1336. *)
Definition is_c_uint_32 (i : stint) : bool :=
  match i with
  | Small z => (0 <=? z) && (z <? UINT_MAX)
  | Large false bs =>
    if nbytes bs =? 4 then true
    else if nbytes bs =? 5 then byte_at bs 4 =? 0
    else false
  | Large true _ => false
  end.

(** The sum of the four low bytes, in libgst/dict.inl:1346-1350. *)
Definition low32 (bs : list Z) : Z :=
  byte_at bs 3 * 2 ^ 24 + byte_at bs 2 * 2 ^ 16 + byte_at bs 1 * 2 ^ 8 + byte_at bs 0.

(** The sum of the four bytes above them: libgst/dict.inl:1479-1483. *)
Definition high32 (bs : list Z) : Z :=
  byte_at bs 7 * 2 ^ 56 + byte_at bs 6 * 2 ^ 48 + byte_at bs 5 * 2 ^ 40 + byte_at bs 4 * 2 ^ 32.

(** to_c_int_32: libgst/dict.inl:1338-1351 (result converted to int32_t). *)
Definition to_c_int_32 (i : stint) : Z :=
  match i with
  | Small z => wrap32 z
  | Large _ bs => wrap32 (low32 bs)
  end.

(** The bytes stored by from_c_int_32/64: libgst/dict.inl:1370-1374, 1541-1549. *)
Definition store_bytes (n : nat) (u : Z) : list Z := to_digits 256 n u.

(** from_c_int_32: libgst/dict.inl:1353-1376. The MIN_ST_INT test holds of every
    32-bit value when SIZEOF_OOP is 8; the other branch is kept. *)
Definition from_c_int_32 (i : Z) : stint :=
  if (- 2 ^ 62 <=? i) && (i <=? 2 ^ 62 - 1) then Small i
  else Large (i <? 0) (store_bytes 4 (uwrap32 i)).

(** from_c_uint_32: libgst/dict.inl:1377-1405. *)
Definition from_c_uint_32 (u : Z) : stint :=
  if u <=? 2 ^ 62 - 1 then Small u
  else if wrap64 u <? 0 then Large false (store_bytes 4 u ++ [0])
  else Large false (store_bytes 4 u).

(** is_c_int_64: libgst/dict.inl:1408-1432. *)
Definition is_c_int_64 (i : stint) : bool :=
  match i with
  | Small _ => true
  | Large _ bs => (4 <=? nbytes bs) && (nbytes bs <=? 8)
  end.

(** is_c_uint_64: libgst/dict.inl:1434-1459. *)
Definition is_c_uint_64 (i : stint) : bool :=
  match i with
  | Small z => 0 <=? z
  | Large false bs =>
    if (4 <=? nbytes bs) && (nbytes bs <=? 8) then true
    else if nbytes bs =? 9 then byte_at bs 8 =? 0
    else false
  | Large true _ => false
  end.

(** mask = (((uint64_t) 2) << (n * 8 - 1)) - 1, libgst/dict.inl:1471 and 1498.
    A shift count outside 0..63 is undefined behaviour. *)
Definition mask64 (n : Z) : outcome Z :=
  let count := n * 8 - 1 in
  if (0 <=? count) && (count <=? 63) then Ok (uwrap64 (uwrap64 (2 * 2 ^ count) - 1)) else UB.

(** to_c_uint_64: libgst/dict.inl:1461-1486. *)
Definition to_c_uint_64 (i : stint) : outcome Z :=
  match i with
  | Small z => Ok (uwrap64 z)
  | Large _ bs =>
    match mask64 (nbytes bs) with
    | Ok mask =>
      let result := low32 bs in
      Ok (uwrap64 (if nbytes bs >? 4 then Z.lor result (Z.land mask (high32 bs)) else result))
    | Err => Err | UB => UB | Abort => Abort | OutOfFuel => OutOfFuel
    end
  end.

(** to_c_int_64: libgst/dict.inl:1488-1514. The bits are computed on the
    unsigned reading and read back as an int64_t. *)
Definition to_c_int_64 (i : stint) : outcome Z :=
  match i with
  | Small z => Ok (wrap64 z)
  | Large neg bs =>
    match mask64 (nbytes bs) with
    | Ok mask =>
      let result := if neg then uwrap64 (Z.lnot mask) else 0 in
      let result := Z.lor result (low32 bs) in
      Ok (wrap64 (if nbytes bs >? 4 then Z.lor result (Z.land mask (high32 bs)) else result))
    | Err => Err | UB => UB | Abort => Abort | OutOfFuel => OutOfFuel
    end
  end.

(** from_c_int_64: libgst/dict.inl:1516-1543. *)
Definition from_c_int_64 (i : Z) : stint :=
  if (- 2 ^ 62 <=? i) && (i <=? 2 ^ 62 - 1) then Small i
  else Large (i <? 0) (store_bytes 8 (uwrap64 i)).

(** from_c_uint_64: libgst/dict.inl:1545-1579. *)
Definition from_c_uint_64 (u : Z) : stint :=
  if u <=? 2 ^ 62 - 1 then Small u
  else if wrap64 u <? 0 then Large false (store_bytes 8 u ++ [0])
  else Large false (store_bytes 8 u).
