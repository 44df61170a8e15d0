(** The layout of C structs and unions declared from Smalltalk
    (kernel/CStruct.st, kernel/CType.st, the sizes in kernel/CObject.st). *)
From Verif Require Import Base.

(** The scalar types of TypeMap, kernel/CType.st:70-91. *)
Inductive scalar :=
| CLong | CULong | CLongLong | CULongLong | CByte | CChar | CUChar | CShort | CUShort
| CInt | CUInt | CFloat | CDouble | CLongDouble | CString | CSmalltalk.

(** sizeof and alignof of the classes, kernel/CObject.st:573-1275 and 1291-1306
    (CString inherits those of CAggregate), with the constants of
    libgst/dict.c:1137-1222 for x86-64. *)
Definition scalar_sizeof (s : scalar) : Z :=
  match s with
  | CByte | CChar | CUChar => 1
  | CShort | CUShort => 2
  | CInt | CUInt | CFloat => 4
  | CLong | CULong | CLongLong | CULongLong | CDouble | CString | CSmalltalk => 8
  | CLongDouble => 16
  end.
Definition scalar_alignof (s : scalar) : Z :=
  match s with
  | CByte | CChar | CUChar => 1
  | CShort | CUShort => 2
  | CInt | CUInt | CFloat => 4
  | CLong | CULong | CLongLong | CULongLong | CDouble | CString | CSmalltalk => 8
  | CLongDouble => 16
  end.

(** What may be written in a declaration (CType class>>from:,
    kernel/CType.st:108-137); what a pointer points to does not matter to the
    layout.  A compound is a subclass of CStruct or CUnion, or of such a
    subclass. *)
Inductive ctype :=
| TScalar (s : scalar)
| TPtr
| TArray (t : ctype) (n : Z)
| TCompound (c : compound)
with compound :=
| NoSuper
| Struct (super : compound) (fs : fields)
| Union (super : compound) (fs : fields)
with fields :=
| FNil
| FCons (t : ctype) (fs : fields).

(** Integer>>alignTo:, kernel/CStruct.st:278-284 *)
Definition align_to (x a : Z) : Z := Z.ldiff (x + a - 1) (a - 1).

(** sizeof and alignof of types (kernel/CType.st:228-239, 424-434), of the
    compounds (compiled by compileSize:align:, kernel/CStruct.st:171-186; CCompound's
    own are 0 and 1, 60-72), and the last offset of declaration:inject:into:
    (124-169) with the blocks of CStruct (247-251) and CUnion (265-269). *)
Fixpoint alignof (t : ctype) : Z :=
  match t with
  | TScalar s => scalar_alignof s
  | TPtr => 8
  | TArray t _ => alignof t
  | TCompound c => calignof c
  end
with calignof (c : compound) : Z :=
  match c with
  | NoSuper => 1
  | Struct super fs | Union super fs => max_alignment (calignof super) fs
  end
with max_alignment (m : Z) (fs : fields) : Z :=
  match fs with
  | FNil => m
  | FCons t fs => max_alignment (Z.max (alignof t) m) fs
  end.

Fixpoint sizeof (t : ctype) : Z :=
  match t with
  | TScalar s => scalar_sizeof s
  | TPtr => 8
  | TArray t n => sizeof t * n
  | TCompound c => csizeof c
  end
with csizeof (c : compound) : Z :=
  match c with
  | NoSuper => 0
  | Struct super fs => align_to (struct_end (csizeof super) fs) (max_alignment (calignof super) fs)
  | Union super fs => align_to (union_end 0 fs) (max_alignment (calignof super) fs)
  end
with struct_end (offset : Z) (fs : fields) : Z :=
  match fs with
  | FNil => offset
  | FCons t fs => struct_end (align_to offset (alignof t) + sizeof t) fs
  end
with union_end (offset : Z) (fs : fields) : Z :=
  match fs with
  | FNil => offset
  | FCons t fs => union_end (0 + sizeof t) fs
  end.

(** The offsets in the accessors, kernel/CStruct.st:150-165. *)
Fixpoint struct_offsets (offset : Z) (fs : fields) : list Z :=
  match fs with
  | FNil => []
  | FCons t fs =>
    let o := align_to offset (alignof t) in o :: struct_offsets (o + sizeof t) fs
  end.
Fixpoint union_offsets (fs : fields) : list Z :=
  match fs with
  | FNil => []
  | FCons _ fs => 0 :: union_offsets fs
  end.

Definition offsets (c : compound) : list Z :=
  match c with
  | NoSuper => []
  | Struct super fs => struct_offsets (csizeof super) fs
  | Union super fs => union_offsets fs
  end.
