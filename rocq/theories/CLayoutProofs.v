(** The layout computed is that of a C compiler. *)
From Coq Require Import ZifyBool.
From Verif Require Import Base CLayout CLayoutSpec.

Scheme ctype_mut := Induction for ctype Sort Prop
  with compound_mut := Induction for compound Sort Prop
  with fields_mut := Induction for fields Sort Prop.
Combined Scheme layout_ind from ctype_mut, compound_mut, fields_mut.

Definition pow2 (a : Z) : Prop := exists k, 0 <= k /\ a = 2 ^ k.

Lemma pow2_pos a : pow2 a -> 0 < a.
Proof. intros (k & Hk & ->). apply Z.pow_pos_nonneg; lia. Qed.

Lemma align_to_ok x a : pow2 a -> first_multiple a x (align_to x a).
Proof.
  intros P. pose proof (pow2_pos a P) as Ha. destruct P as (k & Hk & ->).
  unfold align_to. replace (2 ^ k - 1) with (Z.ones k) by (rewrite Z.ones_equiv; lia).
  rewrite Z.ldiff_ones_r, Z.shiftl_mul_pow2, Z.shiftr_div_pow2 by lia.
  set (b := 2 ^ k) in *.
  pose proof (Z.div_mod (x + b - 1) b ltac:(lia)) as D. pose proof (Z.mod_pos_bound (x + b - 1) b Ha) as M.
  set (q := (x + b - 1) / b) in *.
  split; [exists q; reflexivity|]. split; [lia|].
  intros z (w & ->) Hz. assert (q <= w); [|apply Z.mul_le_mono_nonneg_r; lia].
  unfold q. assert (x + b - 1 < (w + 1) * b) by lia.
  apply Z.lt_succ_r, Z.div_lt_upper_bound; lia.
Qed.

Lemma align_to_ge x a : pow2 a -> x <= align_to x a.
Proof. intros P. destruct (align_to_ok x a P) as (_ & H & _). exact H. Qed.

Lemma pow2_max a b : pow2 a -> pow2 b -> pow2 (Z.max a b).
Proof. intros Ha Hb. destruct (Z.max_spec a b) as [[_ ->]|[_ ->]]; assumption. Qed.

Lemma pow2_scalar s : pow2 (scalar_alignof s).
Proof.
  destruct s; cbn;
    (exists 0; split; [lia|reflexivity]) || (exists 1; split; [lia|reflexivity]) || (exists 2; split; [lia|reflexivity])
    || (exists 3; split; [lia|reflexivity]) || (exists 4; split; [lia|reflexivity]).
Qed.

Lemma pow2_alignof : (forall t, pow2 (alignof t)) /\ (forall c, pow2 (calignof c))
  /\ (forall fs m, pow2 m -> pow2 (max_alignment m fs)).
Proof.
  apply layout_ind; cbn [alignof calignof max_alignment]; auto.
  - intros s. apply pow2_scalar.
  - exists 3. split; [lia|reflexivity].
  - exists 0. split; [lia|reflexivity].
  - intros t Ht fs Hfs m Hm. apply Hfs, pow2_max; auto.
Qed.

Lemma struct_end_cons e t fs : struct_end e (FCons t fs) = struct_end (align_to e (alignof t) + sizeof t) fs.
Proof. reflexivity. Qed.
Lemma union_end_cons e t fs : union_end e (FCons t fs) = union_end (sizeof t) fs.
Proof. reflexivity. Qed.
Lemma csizeof_struct c fs : csizeof (Struct c fs) = align_to (struct_end (csizeof c) fs) (max_alignment (calignof c) fs).
Proof. reflexivity. Qed.
Lemma csizeof_union c fs : csizeof (Union c fs) = align_to (union_end 0 fs) (max_alignment (calignof c) fs).
Proof. reflexivity. Qed.
Lemma max_alignment_cons m t fs : max_alignment m (FCons t fs) = max_alignment (Z.max (alignof t) m) fs.
Proof. reflexivity. Qed.

(** No size is negative. *)
Lemma sizeof_pos : (forall t, wf t -> 0 <= sizeof t) /\ (forall c, wf_compound c -> 0 <= csizeof c)
  /\ (forall fs, wf_fields fs -> (forall e, 0 <= e -> e <= struct_end e fs) /\ (forall e, 0 <= e -> 0 <= union_end e fs)).
Proof.
  destruct pow2_alignof as (Pt & Pc & Pf).
  apply layout_ind.
  - intros s _. destruct s; cbn; lia.
  - cbn. lia.
  - intros t H n (W & Hn). cbn [sizeof]. apply Z.mul_nonneg_nonneg; auto.
  - intros c H W. exact (H W).
  - cbn. lia.
  - intros c Hc fs Hf (W1 & W2). rewrite csizeof_struct.
    destruct (Hf W2) as (Hs & _). specialize (Hs _ (Hc W1)). specialize (Hc W1).
    pose proof (align_to_ge (struct_end (csizeof c) fs) _ (Pf fs _ (Pc c))). lia.
  - intros c Hc fs Hf (W1 & W2). rewrite csizeof_union.
    destruct (Hf W2) as (_ & Hs). specialize (Hs 0 ltac:(lia)).
    pose proof (align_to_ge (union_end 0 fs) _ (Pf fs _ (Pc c))). lia.
  - intros _. split; cbn; lia.
  - intros t Ht fs Hf (W1 & W2). destruct (Hf W2) as (Hs & Hu). specialize (Ht W1). split.
    + intros e He. rewrite struct_end_cons. pose proof (align_to_ge e _ (Pt t)).
      specialize (Hs (align_to e (alignof t) + sizeof t) ltac:(lia)). lia.
    + intros e He. rewrite union_end_cons. apply Hu. exact Ht.
Qed.

Lemma layout_ok : (forall t, wf t -> ordered t -> sized t (sizeof t) (alignof t))
  /\ (forall c, wf_compound c -> ordered_compound c -> laid c (offsets c) (csizeof c) (calignof c))
  /\ (forall fs, wf_fields fs -> ordered_fields fs ->
       (forall e a, placed e a fs (struct_offsets e fs) (struct_end e fs) (max_alignment a fs))
       /\ (forall e a, exists e', overlaid e a fs (union_offsets fs) e' (max_alignment a fs))
       /\ (forall e l, last_is e l fs -> union_end l fs = e)).
Proof.
  destruct pow2_alignof as (Pt & Pc & Pf).
  apply layout_ind.
  - intros s _ _. pose proof (s_scalar s) as H. destruct s; exact H.
  - intros _ _. apply s_ptr.
  - intros t H n (W & Hn) O. cbn [sizeof alignof]. rewrite Z.mul_comm. apply s_array. exact (H W O).
  - intros c H W O. apply (s_compound c (offsets c)). exact (H W O).
  - intros _ _. apply l_none.
  - intros c Hc fs Hf (W1 & W2) (O1 & O2). destruct (Hf W2 O2) as (Hp & _).
    eapply l_struct; [exact (Hc W1 O1)|exact (Hp _ _)|]. rewrite csizeof_struct. apply align_to_ok, Pf, Pc.
  - intros c Hc fs Hf (W1 & W2) (O1 & O2 & O3). destruct (Hf W2 O2) as (_ & Ho & Hl).
    destruct (Ho (csizeof c) (calignof c)) as (e' & He).
    eapply l_union; [exact (Hc W1 O1)|exact He|].
    rewrite csizeof_union. rewrite (Hl e' 0 (O3 _ _ _ _ _ _ (Hc W1 O1) He)). apply align_to_ok, Pf, Pc.
  - intros _ _. split; [intros; apply p_nil|]. split; [intros e a; exists e; apply o_nil|].
    intros e l H. exact H.
  - intros t Ht fs Hf (W1 & W2) (O1 & O2). destruct (Hf W2 O2) as (Hp & Ho & Hl). specialize (Ht W1 O1).
    split; [|split].
    + intros e a. rewrite struct_end_cons, max_alignment_cons, Z.max_comm.
      eapply p_cons; [exact Ht|apply align_to_ok, Pt|apply Hp].
    + intros e a. destruct (Ho (Z.max e (sizeof t)) (Z.max a (alignof t))) as (e' & He).
      exists e'. rewrite max_alignment_cons, Z.max_comm. exact (o_cons _ _ _ _ _ _ _ _ _ Ht He).
    + intros e l H. rewrite union_end_cons. apply Hl. exact (H _ _ Ht).
Qed.

(** The layout is unique. *)
Scheme sized_mut := Induction for sized Sort Prop
  with laid_mut := Induction for laid Sort Prop
  with placed_mut := Induction for placed Sort Prop
  with overlaid_mut := Induction for overlaid Sort Prop.
Combined Scheme spec_ind from sized_mut, laid_mut, placed_mut, overlaid_mut.

Lemma first_multiple_unique a x y z : first_multiple a x y -> first_multiple a x z -> y = z.
Proof. intros (D & H & M) (D' & H' & M'). specialize (M z D' H'). specialize (M' y D H). lia. Qed.

Lemma layout_unique :
  (forall t s a, sized t s a -> forall s' a', sized t s' a' -> s = s' /\ a = a')
  /\ (forall c os s a, laid c os s a -> forall os' s' a', laid c os' s' a' -> os = os' /\ s = s' /\ a = a')
  /\ (forall e a fs os e1 a1, placed e a fs os e1 a1 -> forall os' e1' a1', placed e a fs os' e1' a1' -> os = os' /\ e1 = e1' /\ a1 = a1')
  /\ (forall e a fs os e1 a1, overlaid e a fs os e1 a1 -> forall os' e1' a1', overlaid e a fs os' e1' a1' -> os = os' /\ e1 = e1' /\ a1 = a1').
Proof.
  apply (spec_ind
    (fun t s a _ => forall s' a', sized t s' a' -> s = s' /\ a = a')
    (fun c os s a _ => forall os' s' a', laid c os' s' a' -> os = os' /\ s = s' /\ a = a')
    (fun e a fs os e1 a1 _ => forall os' e1' a1', placed e a fs os' e1' a1' -> os = os' /\ e1 = e1' /\ a1 = a1')
    (fun e a fs os e1 a1 _ => forall os' e1' a1', overlaid e a fs os' e1' a1' -> os = os' /\ e1 = e1' /\ a1 = a1')).
  - intros k s' a' H. inversion H; subst. auto.
  - intros s' a' H. inversion H; subst. auto.
  - intros t n s a H IH s' a' H'. inversion H'; subst. destruct (IH _ _ H4) as [-> ->]. auto.
  - intros c os s a H IH s' a' H'. inversion H'; subst. destruct (IH _ _ _ H1) as (_ & -> & ->). auto.
  - intros os' s' a' H. inversion H; subst. auto.
  - intros super fs os0 s0 a0 os e a s H IH1 H2 IH2 H3 os' s' a' H'. inversion H'; subst.
    match goal with L : laid super _ _ _ |- _ => destruct (IH1 _ _ _ L) as (<- & <- & <-) end.
    match goal with L : placed _ _ fs _ _ _, M : first_multiple a' _ _ |- _ => destruct (IH2 _ _ _ L) as (<- & <- & <-) end.
    split; [reflexivity|]. split; [|reflexivity]. eapply first_multiple_unique; eassumption.
  - intros super fs os0 s0 a0 os e a s H IH1 H2 IH2 H3 os' s' a' H'. inversion H'; subst.
    match goal with L : laid super _ _ _ |- _ => destruct (IH1 _ _ _ L) as (<- & <- & <-) end.
    match goal with L : overlaid _ _ fs _ _ _, M : first_multiple a' _ _ |- _ => destruct (IH2 _ _ _ L) as (<- & <- & <-) end.
    split; [reflexivity|]. split; [|reflexivity]. eapply first_multiple_unique; eassumption.
  - intros e a os' e1' a1' H. inversion H; subst. auto.
  - intros e a t s b o fs os e' a' H IH1 M H2 IH2 os' e1' a1' H'. inversion H'; subst.
    match goal with L : sized t _ _ |- _ => destruct (IH1 _ _ L) as (<- & <-) end.
    match goal with L : first_multiple b e ?x |- _ => rewrite <- (first_multiple_unique _ _ _ _ M L) in * end.
    match goal with L : placed _ _ fs _ _ _ |- _ => destruct (IH2 _ _ _ L) as (<- & <- & <-) end. auto.
  - intros e a os' e1' a1' H. inversion H; subst. auto.
  - intros e a t s b fs os e' a' H IH1 H2 IH2 os' e1' a1' H'. inversion H'; subst.
    match goal with L : sized t _ _ |- _ => destruct (IH1 _ _ L) as (<- & <-) end.
    match goal with L : overlaid _ _ fs _ _ _ |- _ => destruct (IH2 _ _ _ L) as (<- & <- & <-) end. auto.
Qed.

(** Without unions the condition on unions is met. *)
Lemma no_union_ordered : (forall t, no_union t -> ordered t) /\ (forall c, no_union_compound c -> ordered_compound c)
  /\ (forall fs, no_union_fields fs -> ordered_fields fs).
Proof.
  apply layout_ind; cbn [no_union no_union_compound no_union_fields ordered ordered_compound ordered_fields]; tauto.
Qed.

Lemma struct_laid c : wf_compound c -> no_union_compound c -> laid c (offsets c) (csizeof c) (calignof c).
Proof. intros W N. apply layout_ok; [exact W|]. apply no_union_ordered, N. Qed.

Lemma compound_laid c : wf_compound c -> ordered_compound c -> laid c (offsets c) (csizeof c) (calignof c).
Proof. apply layout_ok. Qed.

(** Sizes and alignments of the members of a declaration
    (kernel/CStruct.st:150-165).  Members of structs do not overlap, whatever
    their types. *)
Fixpoint measures (fs : fields) : list (Z * Z) :=
  match fs with FNil => [] | FCons t fs => (sizeof t, alignof t) :: measures fs end.

Lemma fields_apart fs : wf_fields fs -> forall s e, struct_end e fs <= s -> apart s e (measures fs) (struct_offsets e fs).
Proof.
  induction fs as [|t fs IH]; intros W s e H; [constructor; exact H|].
  destruct W as [W1 W2]. rewrite struct_end_cons in H. cbn [measures struct_offsets].
  destruct (align_to_ok e (alignof t) (proj1 pow2_alignof t)) as (D & G & _).
  constructor; [exact G|exact D|]. apply IH; [exact W2|exact H].
Qed.

Lemma struct_apart super fs : wf_compound super -> wf_fields fs ->
  apart (csizeof (Struct super fs)) (csizeof super) (measures fs) (offsets (Struct super fs)).
Proof.
  intros W1 W2. apply fields_apart; [exact W2|]. rewrite csizeof_struct. apply align_to_ge.
  apply pow2_alignof. apply pow2_alignof.
Qed.

(** Elements of arrays are aligned. *)
Lemma size_aligned : (forall t, (alignof t | sizeof t)) /\ (forall c, (calignof c | csizeof c)) /\ (forall fs : fields, True).
Proof.
  destruct pow2_alignof as (Pt & Pc & Pf).
  apply layout_ind; auto.
  - intros s. exists 1. destruct s; reflexivity.
  - exists 1. reflexivity.
  - intros t (q & H) n. exists (q * n). cbn [sizeof alignof]. rewrite H. ring.
  - exists 0. reflexivity.
  - intros c _ fs _. rewrite csizeof_struct. apply align_to_ok, Pf, Pc.
  - intros c _ fs _. rewrite csizeof_union. apply align_to_ok, Pf, Pc.
Qed.
