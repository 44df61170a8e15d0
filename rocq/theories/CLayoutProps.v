(** Theorems about the layout of C structures (C124, C125). *)
From Verif Require Import Base CLayout CLayoutSpec CLayoutProofs CLayoutExamples.

(** The offsets, the size and the alignment of a CStruct are those that a C
    compiler gives it, for all declarations in which no union occurs. *)
Theorem C124_struct : forall c, wf_compound c -> no_union_compound c ->
  laid c (offsets c) (csizeof c) (calignof c).
Proof. exact struct_laid. Qed.
Print Assumptions C124_struct.

(** char, double, int[3] and a struct of a short and a char *)
Example C124_sample : wf_compound sample /\ no_union_compound sample
  /\ offsets sample = [0; 8; 16; 28] /\ csizeof sample = 32 /\ calignof sample = 8.
Proof. cbn; repeat split; lia. Qed.

(** There is only one such layout. *)
Theorem C124_unique : forall c os s a os' s' a', laid c os s a -> laid c os' s' a' -> os = os' /\ s = s' /\ a = a'.
Proof. intros c os s a os' s' a' H. exact (proj1 (proj2 layout_unique) c os s a H os' s' a'). Qed.
Print Assumptions C124_unique.

(** Members do not overlap, nor reach into those of the superclass or out of
    the struct, and are aligned, whatever their types. *)
Theorem C124_members : forall super fs, wf_compound super -> wf_fields fs ->
  apart (csizeof (Struct super fs)) (csizeof super) (measures fs) (offsets (Struct super fs)).
Proof. exact struct_apart. Qed.
Print Assumptions C124_members.

(** a subclass of the struct above, with two more members *)
Example C124_subclass :
  let fs := FCons (TScalar CChar) (FCons TPtr FNil) in
  wf_compound sample /\ wf_fields fs /\ offsets (Struct sample fs) = [32; 40] /\ csizeof (Struct sample fs) = 48.
Proof. cbn; repeat split; lia. Qed.

(** So are all the elements of an array of any type, since the size is a
    multiple of the alignment. *)
Theorem C124_arrays : forall t i, (alignof t | i * sizeof t).
Proof. intros t i. apply Z.divide_mul_r. exact (proj1 size_aligned t). Qed.
Print Assumptions C124_arrays.

(** A CUnion is as large as its last member, not as its largest one ... *)
Theorem C125_size_refuted : exists c os s a, wf_compound c /\ laid c os s a /\ csizeof c < s.
Proof. exact union_size. Qed.
Print Assumptions C125_size_refuted.

(** ... so a member can be larger than the memory that new allocates for the
    union ... *)
Theorem C125_room_refuted : exists super t fs, wf_compound (Union super (FCons t fs))
  /\ offsets (Union super (FCons t fs)) = 0 :: union_offsets fs
  /\ csizeof (Union super (FCons t fs)) < 0 + sizeof t.
Proof. exact union_overflow. Qed.
Print Assumptions C125_room_refuted.

(** ... and the members of a struct after such a union are misplaced. *)
Theorem C125_struct_refuted : exists c os s a, wf_compound c /\ laid c os s a /\ offsets c <> os /\ csizeof c <> s.
Proof. exact union_in_struct. Qed.
Print Assumptions C125_struct_refuted.

(** If in every union the last member is the largest, layouts are right. *)
Theorem C125_layout_partial : forall c, wf_compound c -> ordered_compound c ->
  laid c (offsets c) (csizeof c) (calignof c).
Proof. exact compound_laid. Qed.
Print Assumptions C125_layout_partial.

(** union { char c; double d; } *)
Example C125_sample : wf_compound good /\ ordered_compound good /\ csizeof good = 8 /\ offsets good = [0; 0].
Proof. split; [cbn; tauto|]. split; [exact good_ordered|]. split; reflexivity. Qed.
