(** What a C compiler does (ISO C, 6.7.2.1, and the System V psABI for x86-64,
    3.1.2): a member is put at the first multiple of its alignment after the
    members before it, all the members of a union at 0; a compound has the
    largest of the alignments and the first multiple of it as its size that has
    room for all members.  A subclass is a compound the first member of which
    is the superclass.  Of the model only the syntax of declarations is used. *)
From Verif Require Import Base CLayout.

Definition abi (k : scalar) : Z * Z :=
  match k with
  | CByte | CChar | CUChar => (1, 1)
  | CShort | CUShort => (2, 2)
  | CInt | CUInt | CFloat => (4, 4)
  | CLong | CULong | CLongLong | CULongLong | CDouble => (8, 8)
  | CString | CSmalltalk => (8, 8)
  | CLongDouble => (16, 16)
  end.

(** y is the first multiple of a from x on *)
Definition first_multiple (a x y : Z) : Prop :=
  (a | y) /\ x <= y /\ forall z, (a | z) -> x <= z -> y <= z.

Inductive sized : ctype -> Z -> Z -> Prop :=
| s_scalar k : sized (TScalar k) (fst (abi k)) (snd (abi k))
| s_ptr : sized TPtr 8 8
| s_array t n s a : sized t s a -> sized (TArray t n) (n * s) a
| s_compound c os s a : laid c os s a -> sized (TCompound c) s a
(** compound, the offsets of its members, size and alignment *)
with laid : compound -> list Z -> Z -> Z -> Prop :=
| l_none : laid NoSuper [] 0 1
| l_struct super fs os0 s0 a0 os e a s :
    laid super os0 s0 a0 -> placed s0 a0 fs os e a -> first_multiple a e s ->
    laid (Struct super fs) os s a
| l_union super fs os0 s0 a0 os e a s :
    laid super os0 s0 a0 -> overlaid s0 a0 fs os e a -> first_multiple a e s ->
    laid (Union super fs) os s a
with placed : Z -> Z -> fields -> list Z -> Z -> Z -> Prop :=
| p_nil e a : placed e a FNil [] e a
| p_cons e a t s b o fs os e' a' :
    sized t s b -> first_multiple b e o -> placed (o + s) (Z.max a b) fs os e' a' ->
    placed e a (FCons t fs) (o :: os) e' a'
with overlaid : Z -> Z -> fields -> list Z -> Z -> Z -> Prop :=
| o_nil e a : overlaid e a FNil [] e a
| o_cons e a t s b fs os e' a' :
    sized t s b -> overlaid (Z.max e s) (Z.max a b) fs os e' a' ->
    overlaid e a (FCons t fs) (0 :: os) e' a'.

(** Arrays have no negative number of elements. *)
Fixpoint wf (t : ctype) : Prop :=
  match t with
  | TScalar _ | TPtr => True
  | TArray t n => wf t /\ 0 <= n
  | TCompound c => wf_compound c
  end
with wf_compound (c : compound) : Prop :=
  match c with
  | NoSuper => True
  | Struct super fs | Union super fs => wf_compound super /\ wf_fields fs
  end
with wf_fields (fs : fields) : Prop :=
  match fs with
  | FNil => True
  | FCons t fs => wf t /\ wf_fields fs
  end.

(** The last member of fs has size e ([l] if there is none). *)
Fixpoint last_is (e l : Z) (fs : fields) : Prop :=
  match fs with
  | FNil => l = e
  | FCons t fs => forall s a, sized t s a -> last_is e s fs
  end.

(** In every union the last member is as large as any other, and as the
    superclass. *)
Fixpoint ordered (t : ctype) : Prop :=
  match t with
  | TScalar _ | TPtr => True
  | TArray t n => ordered t
  | TCompound c => ordered_compound c
  end
with ordered_compound (c : compound) : Prop :=
  match c with
  | NoSuper => True
  | Struct super fs => ordered_compound super /\ ordered_fields fs
  | Union super fs =>
    ordered_compound super /\ ordered_fields fs /\
    (forall os0 s0 a0 os e a, laid super os0 s0 a0 -> overlaid s0 a0 fs os e a -> last_is e 0 fs)
  end
with ordered_fields (fs : fields) : Prop :=
  match fs with
  | FNil => True
  | FCons t fs => ordered t /\ ordered_fields fs
  end.

(** No unions at all. *)
Fixpoint no_union (t : ctype) : Prop :=
  match t with
  | TScalar _ | TPtr => True
  | TArray t n => no_union t
  | TCompound c => no_union_compound c
  end
with no_union_compound (c : compound) : Prop :=
  match c with
  | NoSuper => True
  | Struct super fs => no_union_compound super /\ no_union_fields fs
  | Union super fs => False
  end
with no_union_fields (fs : fields) : Prop :=
  match fs with
  | FNil => True
  | FCons t fs => no_union t /\ no_union_fields fs
  end.

(** The members of a struct, of sizes [ss] and alignments [als], are one after
    the other between e and s and each at a multiple of its alignment. *)
Inductive apart (s : Z) : Z -> list (Z * Z) -> list Z -> Prop :=
| ap_nil e : e <= s -> apart s e [] []
| ap_cons e z b o m os : e <= o -> (b | o) -> apart s (o + z) m os -> apart s e ((z, b) :: m) (o :: os).
