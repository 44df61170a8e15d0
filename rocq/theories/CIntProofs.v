From Verif Require Import Base Digits IntRep IntRepProofs CInt.

Lemma lor_disjoint a b k : 0 <= k -> 0 <= a < 2 ^ k -> Z.lor a (b * 2 ^ k) = a + b * 2 ^ k.
Proof.
  intros Hk Ha. rewrite <- Z.shiftl_mul_pow2 by assumption.
  apply Z.bits_inj'. intros i Hi. rewrite Z.lor_spec, Z.shiftl_spec by assumption.
  rewrite Z.shiftl_mul_pow2 by assumption.
  destruct (Z.lt_ge_cases i k) as [L|G].
  - rewrite (Z.testbit_neg_r b (i - k)) by lia. rewrite orb_false_r.
    rewrite <- (Z.mod_pow2_bits_low (a + b * 2 ^ k) k i) by lia.
    rewrite Z.mod_add, Z.mod_small by (try apply Z.pow_nonzero; lia). reflexivity.
  - replace (Z.testbit a i) with false.
    + replace i with (i - k + k) at 2 by lia. rewrite <- Z.div_pow2_bits by lia.
      rewrite Z.div_add, Z.div_small by (try apply Z.pow_nonzero; lia). reflexivity.
    + symmetry. destruct (Z.eq_dec a 0) as [->|N]; [apply Z.bits_0|].
      apply Z.bits_above_log2; [lia|].
      assert (Z.log2 a < k) by (apply Z.log2_lt_pow2; lia). lia.
Qed.

Lemma low_high_8 bs : digits_ok 256 bs -> length bs = 8%nat ->
  Z.lor (low32 bs) (Z.land (2 ^ 64 - 1) (high32 bs)) = dval 256 bs /\ 0 <= dval 256 bs < 2 ^ 64.
Proof.
  intros O L. do 8 (destruct bs as [|? bs]; [discriminate|]).
  destruct bs; [|discriminate]. clear L.
  repeat match goal with H : digits_ok _ (_ :: _) |- _ => inversion H; clear H; subst end.
  repeat match goal with H : Forall _ (_ :: _) |- _ => inversion H; clear H; subst end.
  unfold low32, high32, byte_at. cbn [nth]. unfold dval. cbn [fold_right].
  split; [|lia].
  match goal with |- Z.lor ?x (Z.land _ ?y) = _ => set (lo := x); set (hi := y) end.
  rewrite Z.land_comm. replace (2 ^ 64 - 1) with (Z.ones 64) by reflexivity.
  rewrite Z.land_ones by lia. rewrite Z.mod_small by lia.
  assert (E : hi = (z6 * 2 ^ 24 + z5 * 2 ^ 16 + z4 * 2 ^ 8 + z3) * 2 ^ 32) by lia.
  rewrite E, lor_disjoint by lia. lia.
Qed.

Lemma mask64_8 : mask64 8 = Ok (2 ^ 64 - 1).
Proof. reflexivity. Qed.

Lemma to_c_int_64_large neg bs : canonical (Large neg bs) -> length bs = 8%nat ->
  to_c_int_64 (Large neg bs) = Ok (st_val (Large neg bs)).
Proof.
  intros C L. unfold to_c_int_64, nbytes. rewrite L. change (Z.of_nat 8) with 8.
  rewrite mask64_8. change (8 >? 4) with true. cbv iota zeta.
  destruct C as [O [P N]].
  destruct (low_high_8 bs O L) as [E B].
  replace (uwrap64 (Z.lnot (2 ^ 64 - 1))) with 0 by reflexivity.
  replace (if neg then 0 else 0) with 0 by (destruct neg; reflexivity).
  rewrite Z.lor_0_l, E. f_equal. rewrite L in P, N. change (Z.of_nat 8) with 8 in P, N.
  cbn [st_val] in *. rewrite L in *. change (256 ^ Z.of_nat 8) with (2 ^ 64) in *.
  unfold wrap64. destruct neg; [specialize (N eq_refl)|specialize (P eq_refl)]; lia.
Qed.

Lemma to_c_uint_64_large bs : canonical (Large false bs) -> length bs = 8%nat ->
  to_c_uint_64 (Large false bs) = Ok (st_val (Large false bs)).
Proof.
  intros C L. unfold to_c_uint_64, nbytes. rewrite L. change (Z.of_nat 8) with 8.
  rewrite mask64_8. change (8 >? 4) with true. cbv iota zeta.
  destruct C as [O _]. destruct (low_high_8 bs O L) as [E B].
  rewrite E. f_equal. cbn [st_val]. unfold uwrap64. lia.
Qed.

Lemma store_bytes_val n u : 0 <= u < 256 ^ Z.of_nat n -> dval 256 (store_bytes n u) = u.
Proof. intros H. unfold store_bytes. rewrite to_digits_val, Z.mod_small by lia. reflexivity. Qed.

Lemma store_bytes_length n u : length (store_bytes n u) = n.
Proof. apply to_digits_length. Qed.

Lemma store_bytes_ok n u : digits_ok 256 (store_bytes n u).
Proof. apply to_digits_ok. lia. Qed.

Lemma from_c_int_64_obj i : - 2 ^ 63 <= i < 2 ^ 63 -> is_int_obj (from_c_int_64 i) i.
Proof.
  intros H. unfold from_c_int_64.
  destruct ((- 2 ^ 62 <=? i) && (i <=? 2 ^ 62 - 1)) eqn:E.
  - split; [cbn; lia|reflexivity].
  - assert (V : st_val (Large (i <? 0) (store_bytes 8 (uwrap64 i))) = i).
    { cbn [st_val]. rewrite store_bytes_length, store_bytes_val.
      - change (256 ^ Z.of_nat 8) with (2 ^ 64). unfold uwrap64. destruct (i <? 0) eqn:S; lia.
      - change (256 ^ Z.of_nat 8) with (2 ^ 64). unfold uwrap64. lia. }
    split; [|exact V]. unfold canonical. rewrite V, store_bytes_length.
    change (8 * Z.of_nat 8 - 9) with 55. change (8 * Z.of_nat 8 - 1) with 63.
    split; [apply store_bytes_ok|]. split; intros S; lia.
Qed.

Lemma from_c_uint_64_obj u : 0 <= u < 2 ^ 64 -> is_int_obj (from_c_uint_64 u) u.
Proof.
  intros H. unfold from_c_uint_64.
  destruct (u <=? 2 ^ 62 - 1) eqn:E.
  - split; [cbn; lia|reflexivity].
  - destruct (wrap64 u <? 0) eqn:W.
    + assert (B : 2 ^ 63 <= u) by (unfold wrap64 in W; lia).
      assert (V : st_val (Large false (store_bytes 8 u ++ [0])) = u).
      { cbn [st_val]. rewrite dval_app, store_bytes_val by exact H. cbn [dval fold_right]. lia. }
      split; [|exact V]. unfold canonical. rewrite V, app_length, store_bytes_length.
      change (8 * Z.of_nat (8 + length [0]) - 9) with 63.
      change (8 * Z.of_nat (8 + length [0]) - 1) with 71.
      split; [|split; intros; [lia|discriminate]].
      apply digits_ok_app; split; [apply store_bytes_ok|]. repeat constructor; lia.
    + assert (B : u < 2 ^ 63) by (unfold wrap64 in W; lia).
      assert (V : st_val (Large false (store_bytes 8 u)) = u).
      { cbn [st_val]. rewrite store_bytes_val by exact H. lia. }
      split; [|exact V]. unfold canonical. rewrite V, store_bytes_length.
      change (8 * Z.of_nat 8 - 9) with 55. change (8 * Z.of_nat 8 - 1) with 63.
      split; [apply store_bytes_ok|]. split; intros; [lia|discriminate].
Qed.

Lemma canonical_len8 neg bs z : is_int_obj (Large neg bs) z -> - 2 ^ 63 <= z < 2 ^ 63 -> length bs = 8%nat.
Proof.
  intros [C V] H. pose proof (large_length_ge8 _ _ C) as G.
  destruct C as [_ [P N]]. rewrite V in P, N.
  destruct (Nat.eq_dec (length bs) 8) as [|D]; [assumption|exfalso].
  assert (2 ^ 63 <= 2 ^ (8 * Z.of_nat (length bs) - 9)) by (apply Z.pow_le_mono_r; lia).
  destruct neg; [specialize (N eq_refl)|specialize (P eq_refl)]; lia.
Qed.

Lemma canonical_len8_range neg bs z : is_int_obj (Large neg bs) z -> length bs = 8%nat -> - 2 ^ 63 <= z < 2 ^ 63.
Proof.
  intros [[_ [P N]] V] L. rewrite V, L in *. change (8 * Z.of_nat 8 - 1) with 63 in *.
  destruct neg; [specialize (N eq_refl)|specialize (P eq_refl)]; lia.
Qed.

Lemma to_c_int_64_spec i z : is_int_obj i z -> - 2 ^ 63 <= z < 2 ^ 63 -> to_c_int_64 i = Ok z.
Proof.
  intros H R. destruct i as [s|neg bs].
  - destruct H as [_ V]. cbn in V. subst. cbn [to_c_int_64]. f_equal. unfold wrap64. lia.
  - pose proof (canonical_len8 _ _ _ H R) as L. destruct H as [C V].
    rewrite to_c_int_64_large by assumption. congruence.
Qed.

Lemma to_c_uint_64_spec i z : is_int_obj i z -> 0 <= z < 2 ^ 63 -> to_c_uint_64 i = Ok z.
Proof.
  intros H R. destruct i as [s|neg bs].
  - destruct H as [_ V]. cbn in V. subst. cbn [to_c_uint_64]. f_equal. unfold uwrap64. lia.
  - pose proof (canonical_len8 _ _ _ H ltac:(lia)) as L. destruct H as [C V].
    destruct neg. { pose proof (canonical_large_val _ _ C). cbn beta iota in *. lia. }
    rewrite to_c_uint_64_large by assumption. congruence.
Qed.

Lemma to_c_uint_64_big i z : is_int_obj i z -> 2 ^ 63 <= z -> to_c_uint_64 i = UB.
Proof.
  intros H R. destruct i as [s|neg bs].
  - destruct H as [C V]. cbn in C, V. lia.
  - assert (L : length bs <> 8%nat). { intros L. pose proof (canonical_len8_range _ _ _ H L). lia. }
    destruct H as [C V]. pose proof (large_length_ge8 _ _ C).
    unfold to_c_uint_64, mask64, nbytes.
    replace ((0 <=? Z.of_nat (length bs) * 8 - 1) && (Z.of_nat (length bs) * 8 - 1 <=? 63)) with false by lia.
    reflexivity.
Qed.

Lemma is_c_int_64_spec i z : is_int_obj i z -> is_c_int_64 i = true <-> - 2 ^ 63 <= z < 2 ^ 63.
Proof.
  intros H. destruct i as [s|neg bs]; unfold is_c_int_64.
  - destruct H as [C V]. cbn in C, V. lia.
  - pose proof (large_length_ge8 _ _ (proj1 H)). unfold nbytes. split.
    + intros E. apply (canonical_len8_range neg bs z H). lia.
    + intros R. pose proof (canonical_len8 _ _ _ H R). lia.
Qed.

Lemma dval_9 bs : digits_ok 256 bs -> length bs = 9%nat ->
  dval 256 bs = dval 256 (firstn 8 bs) + 2 ^ 64 * byte_at bs 8 /\
  0 <= dval 256 (firstn 8 bs) < 2 ^ 64 /\ 0 <= byte_at bs 8 < 256.
Proof.
  intros O L. do 9 (destruct bs as [|? bs]; [discriminate|]).
  destruct bs; [|discriminate]. clear L.
  repeat match goal with H : digits_ok _ (_ :: _) |- _ => inversion H; clear H; subst end.
  repeat match goal with H : Forall _ (_ :: _) |- _ => inversion H; clear H; subst end.
  unfold byte_at, dval. cbn [nth firstn fold_right]. lia.
Qed.

Lemma is_c_uint_64_spec i z : is_int_obj i z -> is_c_uint_64 i = true <-> 0 <= z < 2 ^ 64.
Proof.
  intros H. destruct i as [s|[|] bs]; unfold is_c_uint_64.
  - destruct H as [C V]. cbn in C, V. lia.
  - destruct H as [C V]. pose proof (canonical_large_val _ _ C). cbn beta iota in *.
    rewrite V in *. split; [discriminate|lia].
  - pose proof (large_length_ge8 _ _ (proj1 H)) as G. unfold nbytes.
    pose proof (canonical_len8 _ _ _ H) as L8. pose proof (canonical_len8_range _ _ _ H) as R8.
    destruct H as [C V]. pose proof (canonical_large_val _ _ C) as LV. cbn beta iota in LV. rewrite V in LV.
    destruct ((4 <=? Z.of_nat (length bs)) && (Z.of_nat (length bs) <=? 8)) eqn:E8.
    + specialize (R8 ltac:(lia)). lia.
    + destruct (Z.of_nat (length bs) =? 9) eqn:E9.
      * assert (L : length bs = 9%nat) by lia. destruct C as [O _].
        destruct (dval_9 bs O L) as (D & D1 & D2). cbn [st_val] in V. lia.
      * split; [discriminate|intros R]. exfalso.
        destruct C as [_ [P _]]. specialize (P eq_refl). rewrite V in P.
        assert (2 ^ 71 <= 2 ^ (8 * Z.of_nat (length bs) - 9)) by (apply Z.pow_le_mono_r; lia). lia.
Qed.

Lemma is_c_int_32_spec i z : is_int_obj i z -> z <> 2 ^ 31 - 1 ->
  is_c_int_32 i = true <-> - 2 ^ 31 <= z < 2 ^ 31.
Proof.
  intros H. destruct i as [s|neg bs]; unfold is_c_int_32, INT_MIN, INT_MAX.
  - destruct H as [C V]. cbn in C, V. lia.
  - pose proof (large_length_ge8 _ _ (proj1 H)). pose proof (canonical_large_val _ _ (proj1 H)) as LV.
    destruct H as [C V]. rewrite V in LV. unfold nbytes. destruct neg; lia.
Qed.

Lemma is_c_uint_32_spec i z : is_int_obj i z -> z <> 2 ^ 32 - 1 ->
  is_c_uint_32 i = true <-> 0 <= z < 2 ^ 32.
Proof.
  intros H. destruct i as [s|neg bs]; unfold is_c_uint_32, UINT_MAX.
  - destruct H as [C V]. cbn in C, V. lia.
  - pose proof (large_length_ge8 _ _ (proj1 H)). pose proof (canonical_large_val _ _ (proj1 H)) as LV.
    destruct H as [C V]. rewrite V in LV. unfold nbytes. destruct neg; [lia|].
    replace (Z.of_nat (length bs) =? 4) with false by lia.
    replace (Z.of_nat (length bs) =? 5) with false by lia. lia.
Qed.

Lemma from_c_int_32_round i : - 2 ^ 31 <= i < 2 ^ 31 ->
  is_int_obj (from_c_int_32 i) i /\ to_c_int_32 (from_c_int_32 i) = i.
Proof.
  intros H. unfold from_c_int_32.
  replace ((- 2 ^ 62 <=? i) && (i <=? 2 ^ 62 - 1)) with true by lia.
  cbn [to_c_int_32]. split; [split; [cbn; lia|reflexivity]|]. unfold wrap32. lia.
Qed.

Lemma from_c_uint_32_round u : 0 <= u < 2 ^ 32 ->
  is_int_obj (from_c_uint_32 u) u /\ uwrap32 (to_c_int_32 (from_c_uint_32 u)) = u.
Proof.
  intros H. unfold from_c_uint_32.
  replace (u <=? 2 ^ 62 - 1) with true by lia.
  cbn [to_c_int_32]. split; [split; [cbn; lia|reflexivity]|]. unfold wrap32, uwrap32. lia.
Qed.
