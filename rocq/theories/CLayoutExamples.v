(** Particular declarations. *)
From Verif Require Import Base CLayout CLayoutSpec CLayoutProofs.

(** struct { char c; double d; int a[3]; struct { short s; char t; } n; } *)
Definition sample : compound :=
  Struct NoSuper
    (FCons (TScalar CChar) (FCons (TScalar CDouble) (FCons (TArray (TScalar CInt) 3)
      (FCons (TCompound (Struct NoSuper (FCons (TScalar CShort) (FCons (TScalar CChar) FNil)))) FNil)))).

(** union { char c; double d; } and union { int a[4]; double d; } *)
Definition good : compound := Union NoSuper (FCons (TScalar CChar) (FCons (TScalar CDouble) FNil)).
Definition bad2 : compound := Union NoSuper (FCons (TArray (TScalar CInt) 4) (FCons (TScalar CDouble) FNil)).

Lemma good_ordered : ordered_compound good.
Proof.
  split; [exact I|]. split; [cbn; auto|]. intros os0 s0 a0 os e a H1 H2.
  destruct (proj1 (proj2 layout_unique) _ _ _ _ H1 _ _ _ l_none) as (-> & -> & ->).
  assert (H : overlaid 0 1 (FCons (TScalar CChar) (FCons (TScalar CDouble) FNil)) [0; 0] 8 8).
  { eapply o_cons; [exact (s_scalar CChar)|]. eapply o_cons; [exact (s_scalar CDouble)|]. apply o_nil. }
  destruct (proj2 (proj2 (proj2 layout_unique)) _ _ _ _ _ _ H2 _ _ _ H) as (-> & -> & ->).
  cbn. intros s a _ s1 a1 H3.
  destruct (proj1 layout_unique _ _ _ H3 _ _ (s_scalar CDouble)) as [-> _]. reflexivity.
Qed.

Lemma bad2_laid : laid bad2 [0; 0] 16 8.
Proof.
  assert (H1 : sized (TArray (TScalar CInt) 4) 16 4) by exact (s_array _ 4 4 4 (s_scalar CInt)).
  eapply l_union; [exact l_none| |].
  - eapply o_cons; [exact H1|]. eapply o_cons; [exact (s_scalar CDouble)|]. apply o_nil.
  - cbn. split; [exists 2; reflexivity|]. split; [lia|]. intros z _ Hz. lia.
Qed.

(** The union { int a[4]; double d; } takes 8 bytes. *)
Lemma union_size : exists c os s a, wf_compound c /\ laid c os s a /\ csizeof c < s.
Proof. exists bad2, [0; 0], 16, 8. split; [cbn; lia|]. split; [exact bad2_laid|]. vm_compute. reflexivity. Qed.

(** A member does not fit into what new allocates. *)
Lemma union_overflow : exists super t fs, wf_compound (Union super (FCons t fs))
  /\ offsets (Union super (FCons t fs)) = 0 :: union_offsets fs
  /\ csizeof (Union super (FCons t fs)) < 0 + sizeof t.
Proof.
  exists NoSuper, (TArray (TScalar CInt) 4), (FCons (TScalar CDouble) FNil).
  split; [cbn; lia|]. split; [reflexivity|]. vm_compute. reflexivity.
Qed.

(** And it makes the members after it in a struct overlap it: struct { union { int
    a[4]; double d; } u; int x; } has x at 8, where a[2] is. *)
Definition holder : compound := Struct NoSuper (FCons (TCompound bad2) (FCons (TScalar CInt) FNil)).
Lemma holder_laid : laid holder [0; 16] 24 8.
Proof.
  eapply l_struct; [exact l_none| |].
  - eapply p_cons; [exact (s_compound _ _ _ _ bad2_laid)| |].
    + split; [exists 0; reflexivity|]. split; [lia|]. intros; lia.
    + eapply p_cons; [exact (s_scalar CInt)| |apply p_nil].
      split; [exists 4; reflexivity|]. split; [cbn; lia|]. intros z _ Hz. cbn in Hz. lia.
  - cbn. split; [exists 3; reflexivity|]. split; [lia|]. intros z (w & ->) Hz. lia.
Qed.

Lemma union_in_struct : exists c os s a, wf_compound c /\ laid c os s a /\ offsets c <> os /\ csizeof c <> s.
Proof.
  exists holder, [0; 16], 24, 8. split; [cbn; lia|]. split; [exact holder_laid|].
  split; vm_compute; discriminate.
Qed.
