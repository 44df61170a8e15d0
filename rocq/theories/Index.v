(** Indexed access to objects: index_oop_spec and index_oop_put_spec,
    libgst/dict.inl:976-1098 and 1110-1264, on a 64-bit VM.  The callers
    (VMpr_Object_basicAt and basicAtPut, libgst/prims.def:2047-2096; the cached
    at: and at:put: of libgst/interp.c:2702-2731) only check that the index is a
    SmallInteger and pass it as a size_t. *)
From Verif Require Import Base Digits IntRep CInt.

(** instanceSpec & ISP_INDEXEDVARS: libgst/gst.h:181-206. *)
Inductive shape :=
| SFixed | SChar | UChar | Character | Short | UShort | Int | UInt | FloatE
| Int64 | UInt64 | FloatD | Utf32 | Pointer.

(** sizeof of the C type used for each shape, libgst/dict.inl:1008-1086; the
    size of an OOP for pointers. *)
Definition esize (s : shape) : Z :=
  match s with
  | SFixed => 8
  | SChar | UChar | Character => 1
  | Short | UShort => 2
  | Int | UInt | FloatE | Utf32 => 4
  | Int64 | UInt64 | FloatD | Pointer => 8
  end.

(** The values that can be stored: Integers, Characters (value 0..255, the
    preallocated table), UnicodeCharacters, FloatE and FloatD objects (by their
    bits), any other object (by its OOP). *)
Inductive value :=
| VInt (i : stint)
| VChar (c : Z)
| VUChar (c : Z)
| VFloatE (bits : Z)
| VFloatD (bits : Z)
| VOther (oop : Z).

(** The data area of an object: the words of a pointer object, or the bytes of
    any other (fixed instance variables, indexed bytes and unused bytes of the
    last word). Models gst_object of libgst/gst.h:109-125. *)
Inductive contents :=
| Words (l : list value)
| Bytes (l : list Z).

(** An object: shape and number of fixed instance variables (its class' instanceSpec),
    the EMPTY_BYTES of its OOP's flags, and its data. *)
Record obj := mk_obj {
  o_shape : shape;
  o_fixed : Z;
  o_empty : Z;
  o_data : contents
}.

(** NUM_WORDS: libgst/dict.inl:471-472. *)
Definition num_words (o : obj) : Z :=
  match o_data o with
  | Words l => Z.of_nat (length l)
  | Bytes l => Z.of_nat (length l) / 8
  end.

(** Object>>basicSize: NUM_INDEXABLE_FIELDS and oop_num_fields,
    libgst/dict.inl:361-363, 895-913. The C type int of the result is not
    modelled: sizes below 2^31 are assumed when it matters. *)
Definition basic_size (o : obj) : Z :=
  match o_shape o with
  | SFixed => 0
  | Pointer => num_words o - o_fixed o
  | s => ((num_words o - o_fixed o) * 8 - o_empty o) / esize s
  end.

(** The bounds check and address computation of DO_INDEX_OOP and
    DO_INDEX_OOP_PUT: libgst/dict.inl:988-1004, 1122-1139. All variables are size_t.
    Every sizeof (type) is at most sizeof (PTR). *)
Definition locate_bytes (o : obj) (index : Z) : option Z :=
  let sz := esize (o_shape o) in
  let maxByte := uwrap64 (uwrap64 (num_words o * 8) - o_empty o) in
  let base := uwrap64 (o_fixed o * 8) in
  let index := uwrap64 (base + index * sz) in
  let base := uwrap64 (base + sz) in
  if uwrap64 (index - base) >? uwrap64 (maxByte - base) then None
  else Some (uwrap64 (index - sz)).

(** The GST_ISP_POINTER case: libgst/dict.inl:1086-1094, 1250-1259. The answer is the
    word index. *)
Definition locate_word (o : obj) (index : Z) : option Z :=
  let maxIndex := num_words o in
  let base := o_fixed o in
  let index := uwrap64 (index + base) in
  let base := uwrap64 (base + 1) in
  if uwrap64 (index - base) >? uwrap64 (maxIndex - base) then None
  else Some (uwrap64 (index - 1)).

Definition slice (off n : Z) (l : list Z) : list Z :=
  firstn (Z.to_nat n) (skipn (Z.to_nat off) l).

Definition splice (off : Z) (new l : list Z) : list Z :=
  firstn (Z.to_nat off) l ++ new ++ skipn (Z.to_nat off + length new) l.

(** Reading [w] bits as a two's complement integer. *)
Definition signed (w u : Z) : Z := if u <? 2 ^ (w - 1) then u else u - 2 ^ w.

(** char_new: libgst/dict.inl:587-603. *)
Definition char_new (c : Z) : value :=
  if c <=? 127 then VChar c
  else if c >? 1114111 then VUChar 65533 else VUChar c.

(** The value answered for the raw (unsigned) element [u]:
    libgst/dict.inl:1008-1084. Note GST_ISP_SHORT: the int16_t is assigned to a
    uint16_t before FROM_INT. *)
Definition decode (s : shape) (u : Z) : value :=
  match s with
  | SChar => VInt (Small (signed 8 u))
  | UChar => VInt (Small u)
  | Character => VChar u
  | Short => VInt (Small u)
  | UShort => VInt (Small u)
  | Int => VInt (from_c_int_32 (wrap32 u))
  | UInt => VInt (from_c_uint_32 u)
  | FloatE => VFloatE u
  | Int64 => VInt (from_c_int_64 (wrap64 u))
  | UInt64 => VInt (from_c_uint_64 u)
  | FloatD => VFloatD u
  | Utf32 => char_new u
  | SFixed | Pointer => VOther u
  end.

(** index_oop_spec: libgst/dict.inl:976-1098. [UB] when the address computed is
    outside the object. *)
Definition at_ (o : obj) (index : Z) : outcome value :=
  let index := uwrap64 index in
  if index <? 1 then Err else
  match o_shape o, o_data o with
  | SFixed, _ => Err
  | Pointer, Words l =>
    match locate_word o index with
    | None => Err
    | Some k => match nth_error l (Z.to_nat k) with Some v => Ok v | None => UB end
    end
  | s, Bytes l =>
    match locate_bytes o index with
    | None => Err
    | Some off =>
      if off + esize s <=? Z.of_nat (length l)
      then Ok (decode s (dval 256 (slice off (esize s) l)))
      else UB
    end
  | _, _ => UB
  end.

(** The element stored for a value, or None if the type check of
    libgst/dict.inl:1154-1247 rejects it. The conversion of Integers and of other Float
    classes stored into Float arrays is not modelled (None). *)
Definition encode (s : shape) (v : value) : option (outcome Z) :=
  match s, v with
  | SChar, VInt (Small z) => if (-128 <=? z) && (z <=? 127) then Some (Ok (z mod 256)) else None
  | UChar, VInt (Small z) => if (0 <=? z) && (z <=? 255) then Some (Ok (z mod 256)) else None
  | Character, VChar c => Some (Ok (c mod 256))
  | Short, VInt (Small z) => if (-32768 <=? z) && (z <=? 32767) then Some (Ok (z mod 65536)) else None
  | UShort, VInt (Small z) => if (0 <=? z) && (z <=? 65535) then Some (Ok (z mod 65536)) else None
  | Int, VInt i => if is_c_int_32 i then Some (Ok (uwrap32 (to_c_int_32 i))) else None
  | UInt, VInt i => if is_c_uint_32 i then Some (Ok (uwrap32 (to_c_int_32 i))) else None
  | FloatE, VFloatE b => Some (Ok (uwrap32 b))
  | FloatD, VFloatD b => Some (Ok (uwrap64 b))
  | Int64, VInt i =>
    if is_c_int_64 i then
      Some (match to_c_int_64 i with Ok z => Ok (uwrap64 z) | e => e end)
    else None
  | UInt64, VInt i => if is_c_uint_64 i then Some (to_c_uint_64 i) else None
  | Utf32, VChar c => if c <=? 127 then Some (Ok (uwrap32 c)) else None
  | Utf32, VUChar c => Some (Ok (uwrap32 c))
  | _, _ => None
  end.

Fixpoint list_set {A} (n : nat) (v : A) (l : list A) : list A :=
  match n, l with
  | _, [] => []
  | O, _ :: r => v :: r
  | S k, x :: r => x :: list_set k v r
  end.

Definition with_data (o : obj) (d : contents) : obj :=
  mk_obj (o_shape o) (o_fixed o) (o_empty o) d.

(** index_oop_put_spec: libgst/dict.inl:1110-1264. The read-only check of the
    caller (libgst/prims.def:2082) is not modelled. *)
Definition at_put (o : obj) (index : Z) (v : value) : outcome obj :=
  let index := uwrap64 index in
  if index <? 1 then Err else
  match o_shape o, o_data o with
  | SFixed, _ => Err
  | Pointer, Words l =>
    match locate_word o index with
    | None => Err
    | Some k =>
      if k <? Z.of_nat (length l) then Ok (with_data o (Words (list_set (Z.to_nat k) v l))) else UB
    end
  | s, Bytes l =>
    match encode s v with
    | None => Err
    | Some src =>
      match locate_bytes o index with
      | None => Err
      | Some off =>
        match src with
        | Ok u =>
          if off + esize s <=? Z.of_nat (length l)
          then Ok (with_data o (Bytes (splice off (to_digits 256 (Z.to_nat (esize s)) u) l)))
          else UB
        | Err => Err | UB => UB | Abort => Abort | OutOfFuel => OutOfFuel
        end
      end
    end
  | _, _ => UB
  end.
