(** Lemmas about the SmallInteger model. *)
From Verif Require Import Base SmallInt.

(** The integers a SmallInteger can denote: specification-level, the class
    comment/limits of kernel/SmallInt.st:52-66 (largest = 2^62-1). *)
Definition small (i : Z) : Prop := - 2 ^ 62 <= i < 2 ^ 62.
Definition smallb (i : Z) : bool := (- 2 ^ 62 <=? i) && (i <? 2 ^ 62).

Lemma smallb_spec i : smallb i = true <-> small i.
Proof. unfold smallb, small; lia. Qed.

Lemma wrap64_id x : - 2 ^ 63 <= x < 2 ^ 63 -> wrap64 x = x.
Proof. unfold wrap64; intros H. rewrite Z.mod_small; lia. Qed.

Lemma wrap64_range x : - 2 ^ 63 <= wrap64 x < 2 ^ 63.
Proof. unfold wrap64. pose proof (Z.mod_pos_bound (x + 2 ^ 63) (2 ^ 64)). lia. Qed.

Lemma wrap64_eq x : exists k, wrap64 x = x - k * 2 ^ 64.
Proof.
  unfold wrap64. exists ((x + 2 ^ 63) / 2 ^ 64).
  pose proof (Z.div_mod (x + 2 ^ 63) (2 ^ 64)). lia.
Qed.

Lemma from_int_small i : small i -> from_int i = 2 * i + 1.
Proof.
  unfold small, from_int; intros H. rewrite Z.shiftl_mul_pow2 by lia.
  change (2 ^ 1) with 2. rewrite (wrap64_id (i * 2)) by lia. rewrite wrap64_id by lia. lia.
Qed.

Lemma to_int_from_int i : small i -> to_int (from_int i) = i.
Proof.
  intros H. rewrite from_int_small by assumption. unfold to_int.
  rewrite Z.shiftr_div_pow2 by lia. change (2 ^ 1) with 2. lia.
Qed.

Lemma is_int_from_int i : small i -> is_int (from_int i) = true.
Proof.
  intros H. rewrite from_int_small by assumption. unfold is_int.
  replace (2 * i + 1) with (1 + 2 * i) by lia. rewrite Z.odd_add_mul_2. reflexivity.
Qed.

Lemma from_int_inj i j : small i -> small j -> from_int i = from_int j -> i = j.
Proof. intros Hi Hj. rewrite !from_int_small by assumption. lia. Qed.

Lemma lxor_neg_sign a b : Z.lxor a b < 0 <-> (a < 0 <-> 0 <= b).
Proof. pose proof (Z.lxor_nonneg a b). lia. Qed.

Lemma int_overflow_spec i : - 2 ^ 63 <= i < 2 ^ 63 -> int_overflow i = negb (smallb i).
Proof.
  intros H. unfold int_overflow, smallb. rewrite Z.shiftl_mul_pow2 by lia. change (2 ^ 1) with 2.
  pose proof (lxor_neg_sign i (wrap64 (i * 2))) as Hx.
  assert (Hs : (- 2 ^ 62 <= i < 2 ^ 62 /\ wrap64 (i * 2) = i * 2)
               \/ (i < - 2 ^ 62 /\ wrap64 (i * 2) = i * 2 + 2 ^ 64)
               \/ (2 ^ 62 <= i /\ wrap64 (i * 2) = i * 2 - 2 ^ 64)).
  { unfold wrap64.
    assert (i < - 2 ^ 62 \/ - 2 ^ 62 <= i < 2 ^ 62 \/ 2 ^ 62 <= i) as [Hc|[Hc|Hc]] by lia.
    - right; left. split; [lia|].
      replace (i * 2 + 2 ^ 63) with ((i * 2 + 2 ^ 63 + 2 ^ 64) + (-1) * 2 ^ 64) by lia.
      rewrite Z.mod_add, Z.mod_small; lia.
    - left. split; [lia|]. rewrite Z.mod_small; lia.
    - right; right. split; [lia|].
      replace (i * 2 + 2 ^ 63) with ((i * 2 + 2 ^ 63 - 2 ^ 64) + 1 * 2 ^ 64) by lia.
      rewrite Z.mod_add, Z.mod_small; lia. }
  destruct Hs as [[Hc He]|[[Hc He]|[Hc He]]]; rewrite He in *; lia.
Qed.

Section Binary.
Variables (a b : Z).
Hypothesis (Ha : small a) (Hb : small b).

Let ia := is_int_from_int a Ha.
Let ib := is_int_from_int b Hb.

Lemma plus_exact portable :
  prim_plus portable (from_int a) (from_int b)
  = if smallb (a + b) then Succeeded (from_int (a + b)) else Failed.
Proof.
  unfold prim_plus, int_bin_op. rewrite ia, ib. cbn [andb].
  pose proof (from_int_small a Ha) as Ea. pose proof (from_int_small b Hb) as Eb.
  unfold small in *.
  destruct portable.
  - unfold add_with_check_c. rewrite Ea, Eb. rewrite (wrap64_id (2 * b + 1 - 1)) by lia.
    cbn [orb]. pose proof (lxor_neg_sign (2 * a + 1) (2 * b + 1)).
    pose proof (lxor_neg_sign (2 * a + 1) (wrap64 (2 * a + 1 + (2 * b + 1 - 1)))).
    destruct (smallb (a + b)) eqn:S.
    + unfold smallb in S. rewrite wrap64_id in * by lia.
      rewrite from_int_small by (unfold small; lia).
      replace (2 * a + 1 + (2 * b + 1 - 1)) with (2 * (a + b) + 1) in * by lia.
      destruct (Z.lxor (2 * a + 1) (2 * b + 1) >=? 0) eqn:?; cbn [andb negb]; [|reflexivity].
      destruct (Z.lxor (2 * a + 1) (2 * (a + b) + 1) <? 0) eqn:?; cbn [negb]; [lia|reflexivity].
    + unfold smallb in S.
      assert (W : (a + b >= 2 ^ 62 /\ wrap64 (2 * a + 1 + (2 * b + 1 - 1)) < 0)
                  \/ (a + b < - 2 ^ 62 /\ wrap64 (2 * a + 1 + (2 * b + 1 - 1)) >= 0)).
      { destruct (wrap64_eq (2 * a + 1 + (2 * b + 1 - 1))) as [k Hk].
        pose proof (wrap64_range (2 * a + 1 + (2 * b + 1 - 1))). lia. }
      replace ((Z.lxor (2 * a + 1) (2 * b + 1) >=? 0) &&
       (Z.lxor (2 * a + 1) (wrap64 (2 * a + 1 + (2 * b + 1 - 1))) <? 0)) with true by lia.
      reflexivity.
  - unfold add_with_check. rewrite Ea, Eb. rewrite (wrap64_id (2 * b + 1 - 1)) by lia.
    cbn [orb]. rewrite negb_involutive.
    destruct (smallb (a + b)) eqn:S; unfold smallb in S.
    + rewrite wrap64_id by lia. rewrite Z.eqb_refl. rewrite from_int_small by (unfold small; lia).
      f_equal; lia.
    + pose proof (wrap64_range (2 * a + 1 + (2 * b + 1 - 1))).
      destruct (wrap64 (2 * a + 1 + (2 * b + 1 - 1)) =? 2 * a + 1 + (2 * b + 1 - 1)) eqn:E; [lia|reflexivity].
Qed.

Lemma minus_exact portable :
  prim_minus portable (from_int a) (from_int b)
  = if smallb (a - b) then Succeeded (from_int (a - b)) else Failed.
Proof.
  unfold prim_minus, int_bin_op. rewrite ia, ib. cbn [andb].
  pose proof (from_int_small a Ha) as Ea. pose proof (from_int_small b Hb) as Eb.
  unfold small in *.
  destruct portable.
  - unfold sub_with_check_c. rewrite Ea, Eb. rewrite (wrap64_id (2 * b + 1 - 1)) by lia.
    cbn [orb]. pose proof (lxor_neg_sign (2 * a + 1) (2 * b + 1)).
    pose proof (lxor_neg_sign (2 * a + 1) (wrap64 (2 * a + 1 - (2 * b + 1 - 1)))).
    destruct (smallb (a - b)) eqn:S.
    + unfold smallb in S. rewrite wrap64_id in * by lia.
      rewrite from_int_small by (unfold small; lia).
      replace (2 * a + 1 - (2 * b + 1 - 1)) with (2 * (a - b) + 1) in * by lia.
      destruct (Z.lxor (2 * a + 1) (2 * b + 1) <? 0) eqn:?; cbn [andb negb]; [|reflexivity].
      destruct (Z.lxor (2 * a + 1) (2 * (a - b) + 1) <? 0) eqn:?; cbn [negb]; [lia|reflexivity].
    + unfold smallb in S.
      assert (W : (a - b >= 2 ^ 62 /\ wrap64 (2 * a + 1 - (2 * b + 1 - 1)) < 0)
                  \/ (a - b < - 2 ^ 62 /\ wrap64 (2 * a + 1 - (2 * b + 1 - 1)) >= 0)).
      { destruct (wrap64_eq (2 * a + 1 - (2 * b + 1 - 1))) as [k Hk].
        pose proof (wrap64_range (2 * a + 1 - (2 * b + 1 - 1))). lia. }
      replace ((Z.lxor (2 * a + 1) (2 * b + 1) <? 0) &&
       (Z.lxor (2 * a + 1) (wrap64 (2 * a + 1 - (2 * b + 1 - 1))) <? 0)) with true by lia.
      reflexivity.
  - unfold sub_with_check. rewrite Ea, Eb. rewrite (wrap64_id (2 * b + 1 - 1)) by lia.
    cbn [orb]. rewrite negb_involutive.
    destruct (smallb (a - b)) eqn:S; unfold smallb in S.
    + rewrite wrap64_id by lia. rewrite Z.eqb_refl. rewrite from_int_small by (unfold small; lia).
      f_equal; lia.
    + pose proof (wrap64_range (2 * a + 1 - (2 * b + 1 - 1))).
      destruct (wrap64 (2 * a + 1 - (2 * b + 1 - 1)) =? 2 * a + 1 - (2 * b + 1 - 1)) eqn:E; [lia|reflexivity].
Qed.

Lemma max_st_int_val : max_st_int = 2 ^ 62 - 1. Proof. reflexivity. Qed.
Lemma min_st_int_val : min_st_int = - 2 ^ 62. Proof. reflexivity. Qed.

(* |a*b - wrapped| is a multiple of 2^64, but the truncated quotient leaves a
   remainder smaller than |b| <= 2^62. *)
Lemma quot_wrap_back r k :
  b <> 0 -> r = a * b - k * 2 ^ 64 -> Z.quot r b = a -> k = 0.
Proof.
  intros Hb0 Hr Hq. pose proof (Z.quot_rem r b Hb0) as Hqr. rewrite Hq in Hqr.
  pose proof (Z.rem_bound_abs r b Hb0) as Hrb. unfold small in *. lia.
Qed.

Lemma times_exact portable :
  prim_times portable (from_int a) (from_int b)
  = if smallb (a * b) then Succeeded (from_int (a * b)) else Failed.
Proof.
  unfold prim_times, int_bin_op. rewrite ia, ib. cbn [andb].
  destruct portable.
  - unfold mul_with_check_c. rewrite !to_int_from_int by assumption.
    rewrite int_overflow_spec by apply wrap64_range. rewrite negb_involutive.
    destruct (wrap64_eq (a * b)) as [k Hk]. pose proof (wrap64_range (a * b)) as Hr.
    destruct (smallb (a * b)) eqn:S.
    + apply smallb_spec in S as S'. unfold small in S'.
      rewrite (wrap64_id (a * b)) by lia. rewrite S, andb_true_r.
      assert (T : (uwrap64 (Z.lor a b) <? Z.shiftl 1 (st_int_size / 2)) || (b =? 0)
                  || (wrap64 (Z.quot (a * b) b) =? a) = true).
      { destruct (b =? 0) eqn:B0; [rewrite orb_true_r; reflexivity|].
        rewrite Z.quot_mul by lia. rewrite wrap64_id by (unfold small in *; lia).
        rewrite Z.eqb_refl. apply orb_true_r. }
      rewrite T. reflexivity.
    + destruct (smallb (wrap64 (a * b))) eqn:S2; [|rewrite andb_false_r; reflexivity].
      rewrite andb_true_r.
      assert (Kn : k <> 0). { intros ->. rewrite Z.mul_0_l, Z.sub_0_r in Hk. congruence. }
      assert (F : (uwrap64 (Z.lor a b) <? Z.shiftl 1 (st_int_size / 2)) || (b =? 0)
                  || (wrap64 (Z.quot (wrap64 (a * b)) b) =? a) = false).
      { apply not_true_is_false. intros T. apply orb_prop in T as [T|T]; [apply orb_prop in T as [T|T]|].
        - (* both operands are non-negative and below 2^31 *)
          change (Z.shiftl 1 (st_int_size / 2)) with (2 ^ 31) in T. apply Z.ltb_lt in T.
          unfold uwrap64 in T. unfold small in *.
          assert (L : 0 <= Z.lor a b).
          { destruct (Z_lt_ge_dec (Z.lor a b) 0) as [N|]; [|lia].
            assert (- 2 ^ 62 <= Z.lor a b).
            { assert (Z.log2_up 0 = 0) by reflexivity.
              assert (Z.land (Z.lnot a) (Z.lnot b) = Z.lnot (Z.lor a b)) as Hd
                by (rewrite Z.lnot_lor; reflexivity).
              assert (Z.lnot (Z.lor a b) < 2 ^ 62 \/ 2 ^ 62 <= Z.lnot (Z.lor a b)) as [|Hbig] by lia;
                [unfold Z.lnot in *; lia|].
              exfalso.
              assert (a < 0 \/ b < 0) as Hneg.
              { destruct (Z_lt_ge_dec a 0); [lia|]. destruct (Z_lt_ge_dec b 0); [lia|].
                exfalso. pose proof (proj2 (Z.lor_nonneg a b)). lia. }
              (* land of two numbers is at most the non-negative one *)
              assert (Hle : forall x y, 0 <= x -> Z.land x y <= x).
              { intros x y Hx. apply Z.ldiff_le; [exact Hx|].
                apply Z.bits_inj'. intros n Hn.
                rewrite Z.ldiff_spec, Z.land_spec, Z.bits_0. 
                destruct (Z.testbit x n), (Z.testbit y n); reflexivity. }
              rewrite <- Hd in Hbig.
              destruct Hneg as [Hn|Hn].
              - specialize (Hle (Z.lnot a) (Z.lnot b)). unfold Z.lnot in *. lia.
              - rewrite Z.land_comm in Hbig. specialize (Hle (Z.lnot b) (Z.lnot a)).
                unfold Z.lnot in *. lia. }
            assert (Z.lor a b mod 2 ^ 64 = Z.lor a b + 2 ^ 64) as Hm.
            { replace (Z.lor a b) with (Z.lor a b + 2 ^ 64 + (-1) * 2 ^ 64) at 1 by lia.
              rewrite Z.mod_add by lia. apply Z.mod_small. lia. }
            lia. }
          apply Z.lor_nonneg in L as [La Lb].
          assert (Hle : forall x y, 0 <= x -> 0 <= y -> x <= Z.lor x y).
          { intros x y Hx Hy. apply Z.ldiff_le; [rewrite Z.lor_nonneg; lia|].
            apply Z.bits_inj'. intros n Hn.
            rewrite Z.ldiff_spec, Z.lor_spec, Z.bits_0. destruct (Z.testbit x n); reflexivity. }
          pose proof (Hle a b La Lb). pose proof (Hle b a Lb La) as Hba. rewrite Z.lor_comm in Hba.
          assert (Z.lor a b < 2 ^ 62 \/ 2 ^ 62 <= Z.lor a b) as [Hlt|Hge] by lia.
          + rewrite Z.mod_small in T by lia.
            assert (0 <= a * b < 2 ^ 62) by nia.
            unfold smallb in S. lia.
          + assert (Z.lor a b < 2 ^ 64).
            { apply Z.log2_lt_pow2; [lia|]. rewrite Z.log2_lor by lia.
              apply Z.max_lub_lt.
              - destruct (Z.eq_dec a 0) as [->|]; [reflexivity|]. apply Z.log2_lt_pow2; lia.
              - destruct (Z.eq_dec b 0) as [->|]; [reflexivity|]. apply Z.log2_lt_pow2; lia. }
            rewrite Z.mod_small in T by lia. lia.
        - apply Z.eqb_eq in T. rewrite T in S. rewrite Z.mul_0_r in S. discriminate S.
        - apply Z.eqb_eq in T. apply Kn.
          assert (b <> 0) by (intros ->; rewrite Z.mul_0_r in S; discriminate S).
          apply (quot_wrap_back (wrap64 (a * b))); [assumption|assumption|].
          apply smallb_spec in S2. unfold small in *.
          pose proof (Z.quot_rem (wrap64 (a * b)) b ltac:(assumption)) as Q.
          assert (Z.abs (Z.quot (wrap64 (a * b)) b) <= 2 ^ 62).
          { rewrite <- Z.quot_abs by assumption. 
            apply Z.le_trans with (Z.abs (wrap64 (a * b))); [|lia].
            apply Z.quot_le_upper_bound; [lia|]. nia. }
          rewrite wrap64_id in T by lia. exact T. }
      rewrite F. reflexivity.
  - unfold mul_with_check. rewrite !to_int_from_int by assumption.
    rewrite max_st_int_val, min_st_int_val.
    destruct (smallb (a * b)) eqn:S.
    + apply smallb_spec in S. unfold small in S. rewrite wrap64_id by lia. rewrite Z.eqb_refl.
      cbn [negb]. replace ((a * b <? - 2 ^ 62) || (a * b >? 2 ^ 62 - 1)) with false by lia.
      reflexivity.
    + unfold smallb in S. destruct (wrap64 (a * b) =? a * b) eqn:E; cbn [negb]; [|reflexivity].
      apply Z.eqb_eq in E. rewrite E.
      replace ((a * b <? - 2 ^ 62) || (a * b >? 2 ^ 62 - 1)) with true by lia.
      reflexivity.
Qed.

Lemma zero_test : (from_int b =? from_int 0) = (b =? 0).
Proof.
  rewrite !from_int_small by (unfold small in *; lia). lia.
Qed.

Lemma divide_exact :
  b <> 0 -> ~ (a = - 2 ^ 62 /\ b = -1) ->
  prim_divide (from_int a) (from_int b)
  = if a mod b =? 0 then Succeeded (from_int (a / b)) else Failed.
Proof.
  intros Hb0 Hc. unfold prim_divide. rewrite ia, ib, zero_test. cbn [andb].
  replace (b =? 0) with false by lia. cbn [negb].
  rewrite !to_int_from_int by assumption.
  pose proof (Z.quot_rem a b Hb0) as Q. pose proof (Z.rem_bound_abs a b Hb0) as R.
  assert (Hq : - 2 ^ 62 <= Z.quot a b <= 2 ^ 62).
  { assert (Z.abs (Z.quot a b) <= 2 ^ 62); [|lia].
    rewrite <- Z.quot_abs by assumption.
    apply Z.le_trans with (Z.abs a); [|unfold small in *; lia].
    apply Z.quot_le_upper_bound; [lia|]. nia. }
  rewrite (wrap64_id (Z.quot a b)) by lia.
  assert (Hm : wrap64 (b * Z.quot a b) = b * Z.quot a b).
  { apply wrap64_id. unfold small in *. 
    pose proof (Z.rem_sign_mul a b Hb0). nia. }
  rewrite Hm.
  destruct (a mod b =? 0) eqn:M.
  - apply Z.eqb_eq in M. apply Z.mod_divide in M; [|assumption]. destruct M as [c Hcc].
    subst a. rewrite Z.quot_mul by assumption. rewrite Z.div_mul by assumption.
    rewrite (Z.mul_comm b c), Z.eqb_refl. reflexivity.
  - destruct (a =? b * Z.quot a b) eqn:E; [|reflexivity].
    exfalso. apply Z.eqb_eq in E. apply Z.eqb_neq in M. apply M.
    rewrite E, Z.mul_comm. apply Z.mod_mul. assumption.
Qed.

Lemma modulo_exact :
  b <> 0 -> prim_modulo (from_int a) (from_int b) = Succeeded (from_int (a mod b)).
Proof.
  intros Hb0. unfold prim_modulo. rewrite ia, ib, zero_test. cbn [andb].
  replace (b =? 0) with false by lia. cbn [negb].
  rewrite !to_int_from_int by assumption.
  pose proof (Z.quot_rem a b Hb0) as Q. pose proof (Z.rem_bound_abs a b Hb0) as R.
  pose proof (lxor_neg_sign (Z.rem a b) b) as X.
  pose proof (Z.rem_sign_mul a b Hb0) as Sg.
  f_equal. f_equal.
  destruct (negb (Z.rem a b =? 0) && (Z.lxor (Z.rem a b) b <? 0)) eqn:C.
  - rewrite wrap64_id by (unfold small in *; lia).
    apply (Z.mod_unique _ _ (Z.quot a b - 1)); lia.
  - apply (Z.mod_unique _ _ (Z.quot a b)); lia.
Qed.

Lemma int_div_exact :
  b <> 0 -> ~ (a = - 2 ^ 62 /\ b = -1) ->
  prim_int_div (from_int a) (from_int b) = Succeeded (from_int (a / b)).
Proof.
  intros Hb0 Hc. unfold prim_int_div. rewrite ia, ib, zero_test. cbn [andb].
  replace (b =? 0) with false by lia. cbn [negb].
  rewrite !to_int_from_int by assumption. unfold small in *.
  assert (G : forall x y, - 2 ^ 62 <= x <= 2 ^ 62 -> 0 < y <= 2 ^ 62 ->
     (if x <? 0
      then Succeeded (from_int (wrap64 (- Z.quot (wrap64 (y - 1 - x)) y)))
      else Succeeded (from_int (Z.quot x y))) = Succeeded (from_int (x / y))).
  { intros x y Hx Hy. destruct (x <? 0) eqn:N.
    - rewrite (wrap64_id (y - 1 - x)) by lia.
      rewrite Z.quot_div_nonneg by lia.
      assert (E : - ((y - 1 - x) / y) = x / y).
      { pose proof (Z.div_mod x y ltac:(lia)) as D. pose proof (Z.mod_pos_bound x y ltac:(lia)).
        assert ((y - 1 - x) / y = - (x / y)); [|lia].
        symmetry. apply (Z.div_unique _ _ _ (y - 1 - x mod y)); lia. }
      rewrite E. rewrite wrap64_id; [reflexivity|].
      pose proof (Z.div_mod x y ltac:(lia)) as D. pose proof (Z.mod_pos_bound x y ltac:(lia)). nia.
    - rewrite Z.quot_div_nonneg by lia. reflexivity. }
  destruct (b <? 0) eqn:Nb.
  - rewrite (wrap64_id (- a)), (wrap64_id (- b)) by lia.
    rewrite G by lia. rewrite Z.div_opp_opp by assumption. reflexivity.
  - apply G; lia.
Qed.

Lemma quo_exact :
  b <> 0 -> ~ (a = - 2 ^ 62 /\ b = -1) ->
  prim_quo (from_int a) (from_int b) = Succeeded (from_int (Z.quot a b)).
Proof.
  intros Hb0 Hc. unfold prim_quo. rewrite ia, ib. cbn [andb].
  rewrite !to_int_from_int by assumption.
  replace (b =? 0) with false by lia. cbn [negb].
  rewrite wrap64_id; [reflexivity|].
  assert (Z.abs (Z.quot a b) <= 2 ^ 62); [|lia].
  rewrite <- Z.quot_abs by assumption.
  apply Z.le_trans with (Z.abs a); [|unfold small in *; lia].
  apply Z.quot_le_upper_bound; [lia|]. nia.
Qed.

Lemma cmp_exact :
  prim_lt (from_int a) (from_int b) = Succeeded (a <? b) /\
  prim_gt (from_int a) (from_int b) = Succeeded (b <? a) /\
  prim_le (from_int a) (from_int b) = Succeeded (a <=? b) /\
  prim_ge (from_int a) (from_int b) = Succeeded (b <=? a) /\
  prim_eq (from_int a) (from_int b) = Succeeded (a =? b) /\
  prim_ne (from_int a) (from_int b) = Succeeded (negb (a =? b)).
Proof.
  unfold prim_lt, prim_gt, prim_le, prim_ge, prim_eq, prim_ne, bool_bin_op.
  rewrite ia, ib. cbn [andb]. rewrite !from_int_small by assumption.
  repeat split; f_equal; lia.
Qed.

Lemma testbit_tag x n : 0 <= n ->
  Z.testbit (2 * x + 1) n = if n =? 0 then true else Z.testbit x (n - 1).
Proof.
  intros Hn. destruct (n =? 0) eqn:E.
  - apply Z.eqb_eq in E. subst n. apply Z.testbit_odd_0.
  - replace n with (Z.succ (n - 1)) at 1 by lia. apply Z.testbit_odd_succ. lia.
Qed.

Lemma testbit_even x n : 0 <= n ->
  Z.testbit (2 * x) n = if n =? 0 then false else Z.testbit x (n - 1).
Proof.
  intros Hn. destruct (n =? 0) eqn:E.
  - apply Z.eqb_eq in E. subst n. apply Z.testbit_even_0.
  - replace n with (Z.succ (n - 1)) at 1 by lia. apply Z.testbit_even_succ. lia.
Qed.

Lemma land_tag x y : Z.land (2 * x + 1) (2 * y + 1) = 2 * Z.land x y + 1.
Proof.
  apply Z.bits_inj'. intros n Hn. rewrite Z.land_spec, !testbit_tag by assumption.
  destruct (n =? 0); [reflexivity|]. rewrite Z.land_spec. reflexivity.
Qed.

Lemma lor_tag x y : Z.lor (2 * x + 1) (2 * y + 1) = 2 * Z.lor x y + 1.
Proof.
  apply Z.bits_inj'. intros n Hn. rewrite Z.lor_spec, !testbit_tag by assumption.
  destruct (n =? 0); [reflexivity|]. rewrite Z.lor_spec. reflexivity.
Qed.

Lemma lxor_tag x y : Z.lxor (2 * x + 1) (2 * y) = 2 * Z.lxor x y + 1.
Proof.
  apply Z.bits_inj'. intros n Hn.
  rewrite Z.lxor_spec, !testbit_tag, testbit_even by assumption.
  destruct (n =? 0); [reflexivity|]. rewrite Z.lxor_spec. reflexivity.
Qed.

(* A number is small iff all its bits from 62 upwards equal its sign. *)
Lemma small_bits x : small x <-> Z.shiftr x 62 = 0 \/ Z.shiftr x 62 = -1.
Proof.
  unfold small. rewrite Z.shiftr_div_pow2 by lia. split; intros H.
  - destruct (Z_lt_ge_dec x 0).
    + right. symmetry. apply (Z.div_unique _ _ _ (x + 2 ^ 62)); lia.
    + left. apply Z.div_small. lia.
  - pose proof (Z.div_mod x (2 ^ 62) ltac:(lia)) as D.
    pose proof (Z.mod_pos_bound x (2 ^ 62) ltac:(lia)). lia.
Qed.

Lemma land_small x y : small x -> small y -> small (Z.land x y).
Proof.
  rewrite !small_bits, Z.shiftr_land.
  intros [-> | ->] [-> | ->]; cbn; auto.
Qed.
Lemma lor_small x y : small x -> small y -> small (Z.lor x y).
Proof.
  rewrite !small_bits, Z.shiftr_lor.
  intros [-> | ->] [-> | ->]; cbn; auto.
Qed.
Lemma lxor_small x y : small x -> small y -> small (Z.lxor x y).
Proof.
  rewrite !small_bits, Z.shiftr_lxor.
  intros [-> | ->] [-> | ->]; cbn; auto.
Qed.

Lemma bitops_exact :
  prim_bit_and (from_int a) (from_int b) = Succeeded (from_int (Z.land a b)) /\
  prim_bit_or (from_int a) (from_int b) = Succeeded (from_int (Z.lor a b)) /\
  prim_bit_xor (from_int a) (from_int b) = Succeeded (from_int (Z.lxor a b)) /\
  op_bit_and_special (from_int a) (from_int b) = Succeeded (from_int (Z.land a b)).
Proof.
  unfold prim_bit_and, prim_bit_or, prim_bit_xor, op_bit_and_special, int_bin_op.
  rewrite ia, ib. cbn [andb orb].
  unfold tagged_and, tagged_or, tagged_xor.
  rewrite (from_int_small (Z.land a b)) by (apply land_small; assumption).
  rewrite (from_int_small (Z.lor a b)) by (apply lor_small; assumption).
  rewrite (from_int_small (Z.lxor a b)) by (apply lxor_small; assumption).
  rewrite (from_int_small a), (from_int_small b) by assumption.
  rewrite land_tag, lor_tag. rewrite (wrap64_id (2 * b + 1 - 1)) by (unfold small in *; lia).
  replace (2 * b + 1 - 1) with (2 * b) by lia. rewrite lxor_tag.
  repeat split.
  unfold is_int. replace (2 * Z.land a b + 1) with (1 + 2 * Z.land a b) by lia.
  rewrite Z.odd_add_mul_2. reflexivity.
Qed.

Lemma bit_shift_exact :
  prim_bit_shift (from_int a) (from_int b)
  = if b <? 0 then Succeeded (from_int (Z.shiftr a (- b)))
    else if smallb (Z.shiftl a b) && (b <? 62) then Succeeded (from_int (Z.shiftl a b))
    else Failed.
Proof.
  unfold prim_bit_shift. rewrite ia, ib. cbn [andb]. rewrite !to_int_from_int by assumption.
  unfold small in *. destruct (b <? 0) eqn:Nb.
  - assert (U : uwrap64 b = b + 2 ^ 64).
    { unfold uwrap64. replace b with (b + 2 ^ 64 + (-1) * 2 ^ 64) at 1 by lia.
      rewrite Z.mod_add by lia. apply Z.mod_small; lia. }
    rewrite U. change (uwrap64 (- st_int_size)) with (2 ^ 64 - 62).
    destruct (b + 2 ^ 64 >=? 2 ^ 64 - 62) eqn:G; [reflexivity|].
    f_equal. f_equal. unfold st_int_size.
    rewrite !Z.shiftr_div_pow2 by lia.
    assert (P : 2 ^ 62 < 2 ^ (- b)) by (apply Z.pow_lt_mono_r; lia).
    destruct (Z_lt_ge_dec a 0).
    + transitivity (-1).
      * symmetry. apply (Z.div_unique _ _ _ (a + 2 ^ 62)); lia.
      * apply (Z.div_unique _ _ _ (a + 2 ^ (- b))); lia.
    + rewrite !Z.div_small; lia.
  - assert (U : uwrap64 b = b) by (unfold uwrap64; apply Z.mod_small; lia).
    rewrite U. unfold st_int_size. destruct (b <? 62) eqn:L; [|rewrite andb_false_r; reflexivity].
    rewrite andb_true_r. rewrite int_overflow_spec by apply wrap64_range.
    rewrite negb_involutive.
    destruct (smallb (Z.shiftl a b)) eqn:S.
    + apply smallb_spec in S as S'. unfold small in S'. rewrite wrap64_id by lia.
      rewrite S, andb_true_r. rewrite Z.shiftr_shiftl_l by lia.
      rewrite Z.sub_diag, Z.shiftl_0_r, Z.eqb_refl. reflexivity.
    + destruct (Z.shiftr (wrap64 (Z.shiftl a b)) b =? a) eqn:E; [|reflexivity].
      destruct (smallb (wrap64 (Z.shiftl a b))) eqn:S2; [|reflexivity].
      exfalso. apply Z.eqb_eq in E.
      destruct (wrap64_eq (Z.shiftl a b)) as [k Hk].
      assert (Kn : k <> 0). { intros ->. rewrite Z.mul_0_l, Z.sub_0_r in Hk. congruence. }
      rewrite Hk in E. rewrite Z.shiftl_mul_pow2, Z.shiftr_div_pow2 in E by lia.
      assert (P : 2 ^ 64 = 2 ^ b * 2 ^ (64 - b)) by (rewrite <- Z.pow_add_r by lia; f_equal; lia).
      rewrite P in E. replace (a * 2 ^ b - k * (2 ^ b * 2 ^ (64 - b)))
        with ((a - k * 2 ^ (64 - b)) * 2 ^ b) in E by ring.
      rewrite Z.div_mul in E by (apply Z.pow_nonzero; lia).
      assert (0 < 2 ^ (64 - b)) by (apply Z.pow_pos_nonneg; lia). nia.
Qed.
End Binary.

(** ** Lifting to the specification *)
From Verif Require Import SmallIntSpec.

Lemma denotes_from w z : denotes w z -> w = from_int z /\ small z.
Proof. intros [-> H]. split; [|exact H]. symmetry. apply from_int_small. exact H. Qed.

Lemma from_denotes z : small z -> denotes (from_int z) z.
Proof. intros H. split; [apply from_int_small; exact H|exact H]. Qed.

Lemma exact_lift p f a b :
  (small a -> small b -> p (from_int a) (from_int b)
     = if smallb (f a b) then Succeeded (from_int (f a b)) else Failed) ->
  exact_or_fails p f a b.
Proof.
  intros H w1 w2 H1 H2. apply denotes_from in H1 as [-> Sa]. apply denotes_from in H2 as [-> Sb].
  rewrite H by assumption. split; intros R.
  - apply smallb_spec in R as R'. rewrite R'. exists (from_int (f a b)).
    split; [reflexivity|]. apply from_denotes. exact R.
  - destruct (smallb (f a b)) eqn:E; [|reflexivity]. apply smallb_spec in E. contradiction.
Qed.

Lemma plus_spec portable a b : exact_or_fails (prim_plus portable) Z.add a b.
Proof. apply exact_lift. intros; apply plus_exact; assumption. Qed.
Lemma minus_spec portable a b : exact_or_fails (prim_minus portable) Z.sub a b.
Proof. apply exact_lift. intros; apply minus_exact; assumption. Qed.
Lemma times_spec portable a b : exact_or_fails (prim_times portable) Z.mul a b.
Proof. apply exact_lift. intros; apply times_exact; assumption. Qed.

(* The quotients of two SmallIntegers are SmallIntegers, but for one case. *)
Lemma div_small_range a b : small a -> small b -> b <> 0 -> ~ (a = - 2 ^ 62 /\ b = -1) ->
  small (a / b).
Proof.
  unfold small. intros Ha Hb Hb0 Hc.
  pose proof (Z.div_mod a b Hb0) as D.
  destruct (Z_lt_ge_dec b 0).
  - pose proof (Z.mod_neg_bound a b ltac:(lia)). nia.
  - pose proof (Z.mod_pos_bound a b ltac:(lia)). nia.
Qed.

Lemma quot_small_range a b : small a -> small b -> b <> 0 -> ~ (a = - 2 ^ 62 /\ b = -1) ->
  small (Z.quot a b).
Proof.
  unfold small. intros Ha Hb Hb0 Hc.
  pose proof (Z.quot_rem a b Hb0) as D. pose proof (Z.rem_bound_abs a b Hb0).
  pose proof (Z.rem_sign_mul a b Hb0). nia.
Qed.

Lemma mod_small_range a b : small a -> small b -> b <> 0 -> small (a mod b).
Proof.
  unfold small. intros Ha Hb Hb0.
  destruct (Z_lt_ge_dec b 0).
  - pose proof (Z.mod_neg_bound a b ltac:(lia)). lia.
  - pose proof (Z.mod_pos_bound a b ltac:(lia)). lia.
Qed.

Lemma total_lift p f a b :
  (small a -> small b -> small (f a b) /\ p (from_int a) (from_int b) = Succeeded (from_int (f a b))) ->
  exact_or_fails p f a b.
Proof.
  intros H. apply exact_lift. intros Sa Sb. destruct (H Sa Sb) as [S ->].
  apply smallb_spec in S. rewrite S. reflexivity.
Qed.

Lemma int_div_spec a b : b <> 0 -> ~ (a = - 2 ^ 62 /\ b = -1) ->
  exact_or_fails prim_int_div Z.div a b.
Proof.
  intros Hb Hc. apply total_lift. intros Sa Sb. split;
  [apply div_small_range|apply int_div_exact]; assumption.
Qed.
Lemma modulo_spec a b : b <> 0 -> exact_or_fails prim_modulo Z.modulo a b.
Proof.
  intros Hb. apply total_lift. intros Sa Sb. split;
  [apply mod_small_range|apply modulo_exact]; assumption.
Qed.
Lemma quo_spec a b : b <> 0 -> ~ (a = - 2 ^ 62 /\ b = -1) ->
  exact_or_fails prim_quo Z.quot a b.
Proof.
  intros Hb Hc. apply total_lift. intros Sa Sb. split;
  [apply quot_small_range|apply quo_exact]; assumption.
Qed.

Lemma divide_spec a b w1 w2 : b <> 0 -> ~ (a = - 2 ^ 62 /\ b = -1) ->
  denotes w1 a -> denotes w2 b ->
  (forall q, a = q * b -> exists r, prim_divide w1 w2 = Succeeded r /\ denotes r q) /\
  ((forall q, a <> q * b) -> prim_divide w1 w2 = Failed).
Proof.
  intros Hb Hc H1 H2. apply denotes_from in H1 as [-> Sa]. apply denotes_from in H2 as [-> Sb].
  rewrite divide_exact by assumption. split.
  - intros q ->. rewrite Z.mod_mul by assumption. rewrite Z.eqb_refl.
    eexists. split; [reflexivity|]. rewrite Z.div_mul by assumption. apply from_denotes.
    rewrite <- (Z.div_mul q b) by assumption. apply div_small_range; assumption.
  - intros Hn. destruct (a mod b =? 0) eqn:E; [|reflexivity]. exfalso.
    apply Z.eqb_eq, Z.mod_divide in E; [|assumption]. destruct E as [q Hq]. apply (Hn q Hq).
Qed.

(** The wrong answer: minVal / -1, minVal // -1, minVal quo: -1 are minVal. *)
Lemma minval_division :
  let w := 2 * (- 2 ^ 62) + 1 in
  denotes w (- 2 ^ 62) /\ denotes (-1) (-1) /\
  prim_divide w (-1) = Succeeded w /\ prim_int_div w (-1) = Succeeded w /\
  prim_quo w (-1) = Succeeded w.
Proof. vm_compute. intuition discriminate. Qed.

Lemma cmp_spec a b :
  decides prim_lt Z.ltb a b /\ decides prim_gt (fun x y => y <? x) a b /\
  decides prim_le Z.leb a b /\ decides prim_ge (fun x y => y <=? x) a b /\
  decides prim_eq Z.eqb a b /\ decides prim_ne (fun x y => negb (x =? y)) a b.
Proof.
  assert (L : forall p f, (small a -> small b -> p (from_int a) (from_int b) = Succeeded (f a b)) ->
              decides p f a b).
  { intros p f H w1 w2 H1 H2. apply denotes_from in H1 as [-> Sa].
    apply denotes_from in H2 as [-> Sb]. apply H; assumption. }
  split; [|split; [|split; [|split; [|split]]]];
  apply L; intros Sa Sb; destruct (cmp_exact a b Sa Sb) as (?&?&?&?&?&?); assumption.
Qed.

Lemma bitops_spec a b :
  exact_or_fails prim_bit_and Z.land a b /\ exact_or_fails prim_bit_or Z.lor a b /\
  exact_or_fails prim_bit_xor Z.lxor a b /\ exact_or_fails op_bit_and_special Z.land a b.
Proof.
  split; [|split; [|split]]; apply total_lift; intros Sa Sb;
  destruct (bitops_exact a b Sa Sb) as (?&?&?&?); (split; [|assumption]);
  auto using land_small, lor_small, lxor_small.
Qed.

Lemma shiftr_small a n : small a -> 0 <= n -> small (Z.shiftr a n).
Proof.
  unfold small. intros H Hn. rewrite Z.shiftr_div_pow2 by assumption.
  assert (0 < 2 ^ n) by (apply Z.pow_pos_nonneg; lia).
  pose proof (Z.div_mod a (2 ^ n) ltac:(lia)). pose proof (Z.mod_pos_bound a (2 ^ n) ltac:(lia)). nia.
Qed.

(* For a shift of 62 or more the primitive always defers, even for 0; the
   answer is then computed by LargeInteger. *)
Lemma bit_shift_spec a b w1 w2 : denotes w1 a -> denotes w2 b ->
  (b < 0 -> exists r, prim_bit_shift w1 w2 = Succeeded r /\ denotes r (a / 2 ^ (- b))) /\
  (0 <= b < 62 -> - 2 ^ 62 <= a * 2 ^ b < 2 ^ 62 ->
     exists r, prim_bit_shift w1 w2 = Succeeded r /\ denotes r (a * 2 ^ b)) /\
  (0 <= b -> ~ (- 2 ^ 62 <= a * 2 ^ b < 2 ^ 62) -> prim_bit_shift w1 w2 = Failed) /\
  (62 <= b -> prim_bit_shift w1 w2 = Failed).
Proof.
  intros H1 H2. apply denotes_from in H1 as [-> Sa]. apply denotes_from in H2 as [-> Sb].
  rewrite bit_shift_exact by assumption.
  split; [|split; [|split]].
  - intros N. replace (b <? 0) with true by lia. rewrite <- Z.shiftr_div_pow2 by lia.
    eexists. split; [reflexivity|]. apply from_denotes. apply shiftr_small; [assumption|lia].
  - intros [B1 B2] R. replace (b <? 0) with false by lia.
    rewrite Z.shiftl_mul_pow2 by lia. replace (smallb (a * 2 ^ b)) with true
      by (symmetry; apply smallb_spec; exact R).
    replace (b <? 62) with true by lia. eexists. split; [reflexivity|]. apply from_denotes. exact R.
  - intros B R. replace (b <? 0) with false by lia.
    rewrite Z.shiftl_mul_pow2 by lia.
    destruct (smallb (a * 2 ^ b)) eqn:E; [apply smallb_spec in E; contradiction|reflexivity].
  - intros B. replace (b <? 0) with false by lia. replace (b <? 62) with false by lia.
    rewrite andb_false_r. reflexivity.
Qed.

(** Operands that are not SmallIntegers are never misread. *)
Lemma non_int_fails w1 w2 : Z.odd w1 && Z.odd w2 = false ->
  prim_plus false w1 w2 = Failed /\ prim_minus false w1 w2 = Failed /\
  prim_times false w1 w2 = Failed /\ prim_divide w1 w2 = Failed /\
  prim_modulo w1 w2 = Failed /\ prim_int_div w1 w2 = Failed /\ prim_quo w1 w2 = Failed /\
  prim_bit_and w1 w2 = Failed /\ prim_bit_or w1 w2 = Failed /\ prim_bit_xor w1 w2 = Failed /\
  prim_bit_shift w1 w2 = Failed /\ op_bit_and_special w1 w2 = Failed /\
  prim_lt w1 w2 = Failed /\ prim_eq w1 w2 = Failed.
Proof.
  intros H.
  unfold prim_plus, prim_minus, prim_times, prim_divide, prim_modulo, prim_int_div, prim_quo,
    prim_bit_and, prim_bit_or, prim_bit_xor, prim_bit_shift, op_bit_and_special, prim_lt, prim_eq,
    bool_bin_op, int_bin_op, is_int, tagged_and.
  rewrite H. repeat split; try reflexivity.
  assert (E : Z.odd (Z.land w1 w2) = Z.odd w1 && Z.odd w2)
    by (rewrite <- !Z.bit0_odd; apply Z.land_spec).
  rewrite E, H. reflexivity.
Qed.
