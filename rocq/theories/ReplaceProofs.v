(** Proofs about range replacement. *)
From Verif Require Import Base Replace ReplaceSpec.

Lemma wrap32_small z : - 2 ^ 31 <= z < 2 ^ 31 -> wrap32 z = z.
Proof. intros H. unfold wrap32. rewrite Z.mod_small; lia. Qed.

Section Proofs.
  Context {A : Type}.
  Implicit Types dst src l : list A.

  Lemma nth_error_firstn_lt l n i : (i < n)%nat -> nth_error (firstn n l) i = nth_error l i.
  Proof. revert n i. induction l as [|a l IH]; intros [|n] [|i] H; cbn; try lia; auto. apply IH. lia. Qed.
  Lemma nth_error_skipn l n i : nth_error (skipn n l) i = nth_error l (n + i).
  Proof. revert n. induction l as [|a l IH]; intros [|n]; cbn; auto. destruct i; reflexivity. Qed.

  Lemma replace_range_some dst start stop src from : in_range dst start stop src from ->
    exists l, replace_range dst start stop src from = Some l /\ replaced dst start stop src from l.
  Proof.
    intros (S1 & [S2 S3] & F1 & F2). unfold replace_range.
    replace ((_ || _ || _ || _ || _)) with false by lia. eexists. split; [reflexivity|]. split.
    - rewrite !app_length, !firstn_length, !skipn_length. lia.
    - intros i. unfold elt. destruct (Z.leb_spec i 0) as [I|I].
      { replace (start <=? i) with false by lia. reflexivity. }
      destruct (Z.lt_ge_cases i start) as [C|C].
      { replace (start <=? i) with false by lia. rewrite nth_error_app1 by (rewrite firstn_length; lia).
        apply nth_error_firstn_lt. lia. }
      replace (start <=? i) with true by lia. rewrite nth_error_app2 by (rewrite firstn_length; lia).
      rewrite firstn_length. replace (Nat.min _ _) with (Z.to_nat (start - 1)) by lia.
      destruct (Z.leb_spec i stop) as [D|D]; cbn [andb].
      + rewrite nth_error_app1 by (rewrite firstn_length, skipn_length; lia).
        rewrite nth_error_firstn_lt by lia. rewrite nth_error_skipn.
        replace (from + (i - start) <=? 0) with false by lia. f_equal. lia.
      + rewrite nth_error_app2 by (rewrite firstn_length, skipn_length; lia).
        rewrite nth_error_skipn, firstn_length, skipn_length. f_equal. lia.
  Qed.

  Lemma replace_range_none dst start stop src from : ~ in_range dst start stop src from ->
    replace_range dst start stop src from = None.
  Proof.
    intros H. unfold replace_range. destruct (_ || _ || _ || _ || _) eqn:E; [reflexivity|]. exfalso. apply H.
    unfold in_range. lia.
  Qed.

  (** Within 2 ^ 30 the int arithmetic of the primitive is exact. *)
  Lemma prim_replace_exact size dst start stop src from : 0 <= size <= 3 ->
    Z.of_nat (length dst) < 2 ^ 28 -> Z.of_nat (length src) < 2 ^ 28 ->
    - 2 ^ 29 <= start <= 2 ^ 29 -> - 2 ^ 29 <= stop <= 2 ^ 29 -> - 2 ^ 29 <= from <= 2 ^ 29 ->
    prim_replace size dst start stop src from = Ok (replace_range dst start stop src from).
  Proof.
    intros SZ D S B1 B2 B3. unfold prim_replace, replace_range. rewrite !wrap32_small by lia.
    unfold int_add at 1. replace ((_ <=? _) && _) with true by lia. cbn [obind].
    unfold int_add at 1. replace ((_ <=? _) && _) with true by lia. cbn [obind].
    replace (stop + - start + 1) with (stop - start + 1) by lia. set (n := stop - start + 1). assert (N : - 2 ^ 30 - 10 <= n <= 2 ^ 30 + 10) by lia.
    destruct (Z.ltb_spec n 0); [reflexivity|]. destruct (Z.ltb_spec (Z.of_nat (length dst)) stop); [reflexivity|].
    destruct (Z.leb_spec start 0); [reflexivity|].
    assert (n <= 2 ^ 28) by lia.
    unfold int_add at 1. replace ((_ <=? _) && _) with true by lia. cbn [obind].
    unfold int_add at 1. replace ((_ <=? _) && _) with true by lia. cbn [obind].
    replace (from + n + -1) with (from + n - 1) by lia.
    destruct (Z.ltb_spec (Z.of_nat (length src)) (from + n - 1)); [reflexivity|]. cbn [orb].
    destruct (Z.leb_spec from 0); cbn [andb].
    - destruct (Z.ltb_spec 0 n); [reflexivity|]. f_equal. f_equal.
      replace (Z.to_nat n) with 0%nat by lia. cbn [firstn app]. replace (start - 1) with stop by lia.
      symmetry. apply firstn_skipn.
    - destruct (Z.ltb_spec 0 n) as [P|P].
      + assert (SH : forall x, 0 <= x < 2 ^ 28 -> int_shl x size = Ok (x * 2 ^ size)).
        { intros x X. unfold int_shl. assert (2 ^ size <= 2 ^ 3) by (apply Z.pow_le_mono_r; lia).
          assert (x * 2 ^ size <= (2 ^ 28 - 1) * 2 ^ 3) by (apply Z.mul_le_mono_nonneg; lia).
          replace ((_ <=? _) && _) with true by lia. reflexivity. }
        assert (0 < 2 ^ size) by (apply Z.pow_pos_nonneg; lia).
        rewrite !SH by lia. cbn [obind]. rewrite !Z.div_mul by lia.
        unfold memmove. replace ((_ <=? _) && _ && _ && _) with true by lia. cbn [obind].
        replace (start - 1 + n) with stop by lia. reflexivity.
      + f_equal. f_equal. replace (Z.to_nat n) with 0%nat by lia. cbn [firstn app]. replace (start - 1) with stop by lia.
        symmetry. apply firstn_skipn.
  Qed.

  Lemma prim_replace_ok size dst start stop src from : 0 <= size <= 3 ->
    Z.of_nat (length dst) < 2 ^ 28 -> Z.of_nat (length src) < 2 ^ 28 ->
    - 2 ^ 29 <= start <= 2 ^ 29 -> - 2 ^ 29 <= stop <= 2 ^ 29 -> - 2 ^ 29 <= from <= 2 ^ 29 ->
    exists r, prim_replace size dst start stop src from = Ok r /\
      match r with
      | Some l => in_range dst start stop src from /\ replaced dst start stop src from l
      | None => ~ in_range dst start stop src from
      end.
  Proof.
    intros SZ D S B1 B2 B3. rewrite prim_replace_exact by assumption. eexists. split; [reflexivity|].
    assert (DEC : in_range dst start stop src from \/ ~ in_range dst start stop src from).
    { unfold in_range. destruct (Z.le_gt_cases 1 start), (Z.le_gt_cases (start - 1) stop), (Z.le_gt_cases stop (Z.of_nat (length dst))),
        (Z.le_gt_cases 1 from), (Z.le_gt_cases start stop), (Z.le_gt_cases (from + (stop - start)) (Z.of_nat (length src))); lia. }
    destruct DEC as [I|I].
    - destruct (replace_range_some _ _ _ _ _ I) as (l & -> & R). auto.
    - rewrite replace_range_none by assumption. assumption.
  Qed.
End Proofs.

(** An index of 2 ^ 32 + 1 stores at index 1. *)
Lemma prim_replace_wraps : exists start stop from dst l, 
  - 2 ^ 62 <= start < 2 ^ 62 /\ - 2 ^ 62 <= stop < 2 ^ 62 /\ ~ in_range dst start stop [9] from /\
  prim_replace 3 dst start stop [9] from = Ok (Some l) /\ l <> dst.
Proof.
  exists (2 ^ 32 + 1), (2 ^ 32 + 1), 1, [1; 2; 3], [9; 2; 3]. split; [lia|]. split; [lia|].
  split; [cbn; unfold in_range; cbn; lia|]. split; [vm_compute; reflexivity|discriminate].
Qed.

(** The sum in the range check overflows. *)
Lemma prim_replace_overflow : exists start stop from (dst src : list Z),
  - 2 ^ 62 <= from < 2 ^ 62 /\ 1 <= start /\ stop <= Z.of_nat (length dst) /\
  prim_replace 3 dst start stop src from = UB.
Proof. exists 1, 2, (2 ^ 31 - 1), [1; 2; 3], [4; 5; 6]. cbn [length]. split; [lia|]. split; [lia|]. split; [lia|]. vm_compute. reflexivity. Qed.
