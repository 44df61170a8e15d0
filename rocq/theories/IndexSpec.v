(** What indexed access should do, stated on bytes and words. *)
From Verif Require Import Base Digits IntRep CInt Index.

(** A well-formed object, as instantiate_with makes them (libgst/dict.inl:748-789):
    whole words; fixed instance variables first, then the elements, then
    [o_empty] unused bytes; at most 2^60 bytes. *)
Definition wf_obj (o : obj) : Prop :=
  0 <= o_fixed o /\
  match o_shape o, o_data o with
  | SFixed, Words l => True
  | Pointer, Words l => o_fixed o <= Z.of_nat (length l) < 2 ^ 57
  | SFixed, Bytes _ | Pointer, Bytes _ => False
  | _, Words _ => False
  | s, Bytes l =>
    let len := Z.of_nat (length l) in
    digits_ok 256 l /\ 0 <= o_empty o < 8 /\ len < 2 ^ 60 /\ len mod 8 = 0 /\
    o_fixed o * 8 + o_empty o <= len /\ (len - o_fixed o * 8 - o_empty o) mod esize s = 0
  end.

(** Number of elements, from the layout. *)
Definition has_size (o : obj) (n : Z) : Prop :=
  match o_data o with
  | Words l => o_shape o = Pointer /\ Z.of_nat (length l) = o_fixed o + n
  | Bytes l => Z.of_nat (length l) = o_fixed o * 8 + n * esize (o_shape o) + o_empty o
  end.

(** Byte (word, for pointer objects) [k] of the data belongs to element [i]. *)
Definition in_slot (o : obj) (i k : Z) : Prop :=
  match o_data o with
  | Words _ => k = o_fixed o + i - 1
  | Bytes _ => o_fixed o * 8 + (i - 1) * esize (o_shape o) <= k < o_fixed o * 8 + i * esize (o_shape o)
  end.

(** Objects of the same layout. *)
Definition same_layout (o o' : obj) : Prop :=
  o_shape o = o_shape o' /\ o_fixed o = o_fixed o' /\ o_empty o = o_empty o' /\
  match o_data o, o_data o' with
  | Words l, Words l' => length l = length l'
  | Bytes l, Bytes l' => length l = length l'
  | _, _ => False
  end.

(** The data of [o] and [o'] agree at byte (word) [k]. *)
Definition agree_at (o o' : obj) (k : Z) : Prop :=
  match o_data o, o_data o' with
  | Words l, Words l' => nth_error l (Z.to_nat k) = nth_error l' (Z.to_nat k)
  | Bytes l, Bytes l' => nth_error l (Z.to_nat k) = nth_error l' (Z.to_nat k)
  | _, _ => False
  end.

(** Indices for which (index - 1) * sizeof (type) does not wrap: all
    SmallIntegers for elements of one or two bytes and for pointers, those below
    2^60 in absolute value otherwise. *)
Definition plain_index (o : obj) (i : Z) : Prop :=
  - 2 ^ 62 <= i < 2 ^ 62 /\
  (esize (o_shape o) <= 2 \/ o_shape o = Pointer \/ - 2 ^ 60 < i < 2 ^ 60).

(** The value [v] is acceptable as an element of shape [s], by type and range. *)
Definition fits (s : shape) (v : value) : Prop :=
  match s, v with
  | SChar, VInt i => canonical i /\ -128 <= st_val i <= 127
  | UChar, VInt i => canonical i /\ 0 <= st_val i <= 255
  | Character, VChar c => 0 <= c <= 255
  | Short, VInt i => canonical i /\ - 2 ^ 15 <= st_val i < 2 ^ 15
  | UShort, VInt i => canonical i /\ 0 <= st_val i < 2 ^ 16
  | Int, VInt i => canonical i /\ - 2 ^ 31 <= st_val i < 2 ^ 31
  | UInt, VInt i => canonical i /\ 0 <= st_val i < 2 ^ 32
  | Int64, VInt i => canonical i /\ - 2 ^ 63 <= st_val i < 2 ^ 63
  | UInt64, VInt i => canonical i /\ 0 <= st_val i < 2 ^ 64
  | FloatE, VFloatE b => 0 <= b < 2 ^ 32
  | FloatD, VFloatD b => 0 <= b < 2 ^ 64
  | Utf32, VChar c => 0 <= c <= 127
  | Utf32, VUChar c => 128 <= c <= 1114111
  | Pointer, _ => True
  | _, _ => False
  end.

(** The values for which the code deviates; see the _refuted theorems. *)
Definition deviant (s : shape) (v : value) : Prop :=
  match s, v with
  | Short, VInt i => st_val i < 0
  | Int, VInt i => st_val i = 2 ^ 31 - 1
  | UInt, VInt i => st_val i = 2 ^ 32 - 1
  | UInt64, VInt i => 2 ^ 63 <= st_val i
  | _, _ => False
  end.
