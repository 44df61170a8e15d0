(** The digits of a Float. *)
From Coq Require Import Reals Lra ZifyBool QArith Qround Qreals.
From Flocq Require Import Core.
From Verif Require Import Base Digits Real RealSpec FloatPrint FloatPrintSpec.
Open Scope Z_scope.
Open Scope R_scope.

(** ** Rational numbers as real numbers *)
Lemma Q2R_Z z : Q2R (inject_Z z) = IZR z.
Proof. unfold Q2R, inject_Z. cbn. field. Qed.

Lemma Q2R_qpow (b : radix) z : Q2R (qpow b z) = bpow b z.
Proof.
  unfold qpow. destruct (0 <=? z)%Z eqn:E.
  - rewrite Q2R_Z. apply IZR_Zpower. lia.
  - assert (H : (0 < b ^ (- z))%Z) by (apply Z.pow_pos_nonneg; [pose proof (radix_gt_0 b); lia|lia]).
    unfold Q2R. cbn [Qnum Qden]. rewrite Z2Pos.id by exact H.
    change (b ^ (- z))%Z with (Zpower b (- z)). rewrite IZR_Zpower by lia. rewrite Rmult_1_l, <- bpow_opp, Z.opp_involutive. reflexivity.
Qed.

Lemma qle_ok a b : Qle_bool a b = true <-> Q2R a <= Q2R b.
Proof. rewrite Qle_bool_iff. split; [apply Qle_Rle|apply Rle_Qle]. Qed.

Lemma qle_no a b : Qle_bool a b = false <-> Q2R b < Q2R a.
Proof.
  split.
  - intros H. apply Rnot_le_lt. intros C. apply qle_ok in C. congruence.
  - intros H. destruct (Qle_bool a b) eqn:E; [|reflexivity]. apply qle_ok in E. lra.
Qed.

Lemma qlt_ok a b : qlt a b = true <-> Q2R a < Q2R b.
Proof. unfold qlt. rewrite negb_true_iff. apply qle_no. Qed.
Lemma qlt_no a b : qlt a b = false <-> Q2R b <= Q2R a.
Proof. unfold qlt. rewrite negb_false_iff. apply qle_ok. Qed.

Lemma Qfloor_ok q : IZR (Qfloor q) <= Q2R q < IZR (Qfloor q) + 1.
Proof.
  split.
  - rewrite <- Q2R_Z. apply Qle_Rle, Qfloor_le.
  - pose proof (Qlt_floor q) as H. apply Qlt_Rlt in H. rewrite Q2R_Z, plus_IZR in H. exact H.
Qed.

Lemma Q2R_div_pos a b : 0 < Q2R b -> Q2R (a / b) = Q2R a / Q2R b.
Proof.
  intros H. apply Q2R_div. intros E. apply Qeq_eqR in E. rewrite E in H. unfold Q2R in H. cbn in H. lra.
Qed.

Lemma bpow_ten_S z : bpow ten (z + 1) = 10 * bpow ten z.
Proof. rewrite bpow_plus. change (bpow ten 1) with 10. lra. Qed.
Lemma bpow_ten_P z : bpow ten (z - 1) = bpow ten z / 10.
Proof. replace (bpow ten z) with (bpow ten (z - 1 + 1)) by (f_equal; lia). rewrite bpow_ten_S. lra. Qed.

(** ** The logarithm *)
Lemma log_down_ok fuel : forall x a n, 0 < Q2R x < 1 -> 1 <= Q2R x * bpow ten (Z.of_nat n) -> (n <= fuel)%nat -> (0 < n)%nat ->
  exists j, log_down fuel x a = Ok (a - Z.of_nat j)%Z /\ bpow ten (- Z.of_nat j - 1) <= Q2R x < bpow ten (- Z.of_nat j).
Proof.
  induction fuel as [|fuel IH]; intros x a n Hx Hn Hf Hp; [lia|]. cbn [log_down].
  set (x' := (x * inject_Z 10)%Q). assert (Hx' : Q2R x' = 10 * Q2R x) by (unfold x'; rewrite Q2R_mult, Q2R_Z; lra).
  destruct (qlt x' 1) eqn:E.
  - apply qlt_ok in E. rewrite Hx' in E. replace (Q2R 1) with 1 in E by (unfold Q2R; cbn; lra).
    destruct n as [|n]; [lia|].
    assert (Hn' : 1 <= Q2R x' * bpow ten (Z.of_nat n)).
    { rewrite Hx'. rewrite Nat2Z.inj_succ, <- Z.add_1_r, bpow_ten_S in Hn. lra. }
    destruct n as [|n]; [change (bpow ten (Z.of_nat 0)) with 1 in Hn'; lra|].
    destruct (IH x' (a - 1)%Z (S n) ltac:(lra) Hn' ltac:(lia) ltac:(lia)) as (j & Ej & L & U).
    exists (S j). split; [rewrite Ej; f_equal; lia|]. rewrite Hx' in L, U.
    replace (- Z.of_nat (S j) - 1)%Z with (- Z.of_nat j - 1 - 1)%Z by lia. rewrite (bpow_ten_P (- Z.of_nat j - 1)).
    replace (- Z.of_nat (S j))%Z with (- Z.of_nat j - 1)%Z by lia. rewrite (bpow_ten_P (- Z.of_nat j)) in *. lra.
  - apply qlt_no in E. rewrite Hx' in E. replace (Q2R 1) with 1 in E by (unfold Q2R; cbn; lra).
    exists O. split; [f_equal; lia|]. change (- Z.of_nat 0 - 1)%Z with (0 - 1)%Z. rewrite bpow_ten_P.
    change (bpow ten (- Z.of_nat 0)) with 1. change (bpow ten 0) with 1. lra.
Qed.

Lemma log_up_ok fuel : forall x that a, Q2R that = bpow ten (a + 1) -> bpow ten a <= Q2R x ->
  forall n, Q2R x < bpow ten (a + 1 + Z.of_nat n) -> (n < fuel)%nat ->
  exists l, log_up fuel x that a = Ok l /\ bpow ten l <= Q2R x < bpow ten (l + 1).
Proof.
  induction fuel as [|fuel IH]; intros x that a Ht Hx n Hn Hf; [lia|]. cbn [log_up].
  destruct (Qle_bool that x) eqn:E.
  - apply qle_ok in E. rewrite Ht in E. destruct n as [|n].
    { rewrite Z.add_0_r in Hn. lra. }
    destruct (IH x (that * inject_Z 10)%Q (a + 1)%Z) with (n := n) as (l & El & H).
    + rewrite Q2R_mult, Q2R_Z, Ht. rewrite (bpow_ten_S (a + 1)). lra.
    + exact E.
    + replace (a + 1 + 1 + Z.of_nat n)%Z with (a + 1 + Z.of_nat (S n))%Z by lia. exact Hn.
    + lia.
    + eauto.
  - apply qle_no in E. rewrite Ht in E. exists a. auto.
Qed.

Lemma two_ten n : (0 <= n)%Z -> bpow radix2 n <= bpow ten n.
Proof.
  intros H. rewrite <- !IZR_Zpower by exact H. apply IZR_le. apply Z.pow_le_mono_l. cbn. lia.
Qed.

Lemma floor_log_ok x e : 0 < Q2R x -> bpow radix2 e <= Q2R x < bpow radix2 (e + 1) ->
  exists l, floor_log (Z.to_nat (Z.abs e) + 3) x = Ok l /\ bpow ten l <= Q2R x < bpow ten (l + 1).
Proof.
  intros Hx [L U]. unfold floor_log. destruct (qlt x 1) eqn:E.
  - apply qlt_ok in E. replace (Q2R 1) with 1 in E by (unfold Q2R; cbn; lra).
    assert (He : (e < 0)%Z).
    { apply (lt_bpow radix2). change (bpow radix2 0) with 1. lra. }
    destruct (log_down_ok (Z.to_nat (Z.abs e) + 3) x (-1)%Z (Z.to_nat (- e)) ltac:(lra)) as (j & Ej & H1 & H2).
    + rewrite Z2Nat.id by lia. pose proof (two_ten (- e) ltac:(lia)) as H.
      assert (1 = bpow radix2 e * bpow radix2 (- e)) by (rewrite <- bpow_plus, Z.add_opp_diag_r; reflexivity).
      pose proof (bpow_gt_0 radix2 e). pose proof (bpow_gt_0 radix2 (- e)).
      apply Rle_trans with (Q2R x * bpow radix2 (- e)); [nra|]. apply Rmult_le_compat_l; lra.
    + lia.
    + lia.
    + exists (-1 - Z.of_nat j)%Z. split; [exact Ej|].
      replace (-1 - Z.of_nat j)%Z with (- Z.of_nat j - 1)%Z by lia.
      replace (- Z.of_nat j - 1 + 1)%Z with (- Z.of_nat j)%Z by lia. auto.
  - apply qlt_no in E. replace (Q2R 1) with 1 in E by (unfold Q2R; cbn; lra).
    assert (He : (0 <= e)%Z).
    { apply Z.lt_succ_r. rewrite <- Z.add_1_r. apply (lt_bpow radix2). change (bpow radix2 0) with 1. lra. }
    apply log_up_ok with (n := Z.to_nat (e + 1)).
    + change (bpow ten (-1 + 1)) with 1. unfold Q2R. cbn. lra.
    + change (-1)%Z with (0 - 1)%Z. rewrite bpow_ten_P. change (bpow ten 0) with 1. lra.
    + rewrite Z2Nat.id by lia. change (-1 + 1 + (e + 1))%Z with (e + 1)%Z.
      pose proof (two_ten (e + 1) ltac:(lia)). lra.
    + lia.
Qed.

(** ** The loop *)
Definition whole (x : R) (z : Z) : Z := Zfloor (x * bpow ten (- z)).
Definition rest (x : R) (z : Z) : R := x - IZR (whole x z) * bpow ten z.

Lemma ten_inv z : bpow ten z * bpow ten (- z) = 1.
Proof. rewrite <- bpow_plus, Z.add_opp_diag_r. reflexivity. Qed.

Lemma rest_bound x z : 0 <= rest x z < bpow ten z.
Proof.
  unfold rest, whole. pose proof (Zfloor_lb (x * bpow ten (- z))) as L. pose proof (Zfloor_ub (x * bpow ten (- z))) as U.
  pose proof (bpow_gt_0 ten z) as P. pose proof (ten_inv z) as I.
  set (d := IZR (Zfloor (x * bpow ten (- z)))) in *.
  assert (X : x * bpow ten (- z) * bpow ten z = x) by (rewrite Rmult_assoc, (Rmult_comm (bpow ten (- z))), I; lra).
  apply Rmult_le_compat_r with (r := bpow ten z) in L; [|lra].
  apply Rmult_lt_compat_r with (r := bpow ten z) in U; [|lra]. rewrite X in *. lra.
Qed.

Lemma whole_unique x z n : 0 <= x - IZR n * bpow ten z < bpow ten z -> whole x z = n.
Proof.
  intros H. unfold whole. apply Zfloor_imp. pose proof (bpow_gt_0 ten z) as P. pose proof (ten_inv z) as I.
  pose proof (bpow_gt_0 ten (- z)) as P'. rewrite plus_IZR.
  assert (A : IZR n * bpow ten z * bpow ten (- z) = IZR n) by (rewrite Rmult_assoc, I; lra).
  split.
  - rewrite <- A. apply Rmult_le_compat_r; lra.
  - apply Rlt_le_trans with ((IZR n * bpow ten z + bpow ten z) * bpow ten (- z)).
    + apply Rmult_lt_compat_r; lra.
    + rewrite Rmult_plus_distr_r, A, I. lra.
Qed.

(** One digit more. *)
Lemma rest_next x z d : let q := (rest x (z + 1) - IZR d * bpow ten z) in
  0 <= q < bpow ten z -> whole x z = (10 * whole x (z + 1) + d)%Z /\ rest x z = q /\ (0 <= d <= 9)%Z.
Proof.
  intros q Hq. pose proof (rest_bound x (z + 1)) as B. unfold q in *. clear q.
  pose proof (bpow_gt_0 ten z) as P. rewrite bpow_ten_S in B.
  assert (W : whole x z = (10 * whole x (z + 1) + d)%Z).
  { apply whole_unique. rewrite plus_IZR, mult_IZR. unfold rest in *. rewrite bpow_ten_S in *. lra. }
  split; [exact W|]. split; [unfold rest at 1; rewrite W, plus_IZR, mult_IZR; unfold rest; rewrite bpow_ten_S; lra|].
  split.
  - apply Z.lt_succ_r. apply lt_IZR. rewrite succ_IZR. nra.
  - apply Z.lt_succ_r. apply lt_IZR. change (IZR (Z.succ 9)) with 10. nra.
Qed.

Record ends (x E : R) (t z : Z) (f : found) : Prop := {
  e_range : (z <= t)%Z;
  e_weight : Q2R (weight f) = bpow ten z;
  e_digits : digits f = whole x z;
  e_num : Q2R (num f) = rest x z;
  e_digit : digits f = (10 * whole x (z + 1) + digit f)%Z /\ (0 <= digit f <= 9)%Z;
  e_nines : all_nines f = (digits f =? 10 ^ (t - z + 1) - 1)%Z;
  e_down : rest x z < E;
  e_up : exists j, (z <= j <= t)%Z /\ bpow ten j - E <= rest x j;
  e_first : (forall j, (z < j <= t)%Z -> E <= rest x j) \/ (forall j, (z < j <= t)%Z -> rest x j < bpow ten j - E) }.

Lemma rest_mono x z : rest x z <= rest x (z + 1).
Proof.
  pose proof (rest_bound x z) as B. pose proof (rest_bound x (z + 1)) as B'. pose proof (bpow_gt_0 ten z) as P.
  set (d := (whole x z - 10 * whole x (z + 1))%Z).
  assert (Er : rest x z = rest x (z + 1) - IZR d * bpow ten z).
  { unfold d. rewrite minus_IZR, mult_IZR. unfold rest. rewrite bpow_ten_S. ring. }
  destruct (rest_next x z d) as (_ & _ & D); [rewrite <- Er; exact B|].
  assert (0 <= IZR d) by (apply IZR_le; lia). nra.
Qed.

Lemma digit_loop_ok x t eps : x < bpow ten (t + 1) -> 0 <= x ->
  forall fuel n w z (nines down up : bool),
  (z <= t)%Z -> Q2R n = rest x (z + 1) -> Q2R w = bpow ten z ->
  nines = (whole x (z + 1) =? 10 ^ (t - z) - 1)%Z ->
  (if down then forall j, (z < j <= t)%Z -> Q2R eps <= rest x j else rest x (z + 1) < Q2R eps) ->
  (if up then forall j, (z < j <= t)%Z -> rest x j < bpow ten j - Q2R eps
   else exists j, (z < j <= t)%Z /\ bpow ten j - Q2R eps <= rest x j) ->
  (down || up = true) ->
  bpow ten (z - Z.of_nat fuel + 1) <= Q2R eps -> (0 < fuel)%nat ->
  exists z' f, digit_loop fuel eps n w (whole x (z + 1)) nines down up = Ok f /\ ends x (Q2R eps) t z' f.
Proof.
  intros Hx Hx0. induction fuel as [|fuel IH]; intros n w z nines down up Hz Hn Hw Hnines Hdown Hup Hgo Hf Hpos; [lia|].
  cbn [digit_loop].
  pose proof (bpow_gt_0 ten z) as P.
  set (d := Qfloor (n / w)).
  assert (Hd : IZR d * bpow ten z <= rest x (z + 1) < IZR d * bpow ten z + bpow ten z).
  { pose proof (Qfloor_ok (n / w)) as H. fold d in H. rewrite Q2R_div_pos in H by (rewrite Hw; exact P). rewrite Hn, Hw in H.
    destruct H as [H1 H2]. apply Rmult_le_compat_r with (r := bpow ten z) in H1; [|lra].
    apply Rmult_lt_compat_r with (r := bpow ten z) in H2; [|lra]. unfold Rdiv in *.
    rewrite Rmult_assoc, Rinv_l, Rmult_1_r in H1, H2 by lra. lra. }
  destruct (rest_next x z d ltac:(lra)) as (W & R & D).
  set (n' := (n - inject_Z d * w)%Q).
  assert (Hn' : Q2R n' = rest x z) by (unfold n'; rewrite Q2R_minus, Q2R_mult, Q2R_Z, Hn, Hw, R; ring).
  replace (whole x (z + 1) * 10 + d)%Z with (whole x z) by lia.
  set (nines' := nines && (d =? 9)%Z).
  assert (Hnines' : nines' = (whole x z =? 10 ^ (t - z + 1) - 1)%Z).
  { unfold nines'. rewrite Hnines, W.
    replace (10 ^ (t - z + 1))%Z with (10 * 10 ^ (t - z))%Z by (rewrite Z.pow_add_r by lia; lia).
    destruct (Z.eqb_spec (whole x (z + 1)) (10 ^ (t - z) - 1)), (Z.eqb_spec d 9),
      (Z.eqb_spec (10 * whole x (z + 1) + d) (10 * 10 ^ (t - z) - 1)); try reflexivity; exfalso; lia. }
  set (down' := down && Qle_bool eps n'). set (up' := up && qlt n' (w - eps)).
  assert (Hdown' : if down' then forall j, (z - 1 < j <= t)%Z -> Q2R eps <= rest x j else rest x z < Q2R eps).
  { unfold down'. destruct down; cbn [andb].
    - destruct (Qle_bool eps n') eqn:E.
      + apply qle_ok in E. rewrite Hn' in E. intros j Hj. destruct (Z.eq_dec j z) as [->|]; [exact E|apply Hdown; lia].
      + apply qle_no in E. rewrite Hn' in E. exact E.
    - pose proof (rest_mono x z). lra. }
  assert (Hup' : if up' then forall j, (z - 1 < j <= t)%Z -> rest x j < bpow ten j - Q2R eps
                 else exists j, (z - 1 < j <= t)%Z /\ bpow ten j - Q2R eps <= rest x j).
  { unfold up'. destruct up; cbn [andb].
    - destruct (qlt n' (w - eps)) eqn:E.
      + apply qlt_ok in E. rewrite Q2R_minus, Hn', Hw in E. intros j Hj. destruct (Z.eq_dec j z) as [->|]; [exact E|apply Hup; lia].
      + apply qlt_no in E. rewrite Q2R_minus, Hn', Hw in E. exists z. split; [lia|exact E].
    - destruct Hup as (j & Hj & H). exists j. split; [lia|exact H]. }
  destruct (down' || up') eqn:Go.
  - assert (Hw' : Q2R (w / inject_Z 10) = bpow ten (z - 1)).
    { rewrite Q2R_div_pos by (rewrite Q2R_Z; lra). rewrite Q2R_Z, Hw, bpow_ten_P. reflexivity. }
    assert (Ez : (z - 1 + 1 = z)%Z) by lia.
    destruct fuel as [|fuel].
    { exfalso. rewrite Nat2Z.inj_succ in Hf. change (Z.of_nat 0) with 0%Z in Hf. replace (z - Z.succ 0 + 1)%Z with z in Hf by lia.
      pose proof (rest_bound x z) as B. apply orb_prop in Go. destruct Go as [Go|Go].
      - rewrite Go in Hdown'. specialize (Hdown' z ltac:(lia)). lra.
      - rewrite Go in Hup'. specialize (Hup' z ltac:(lia)). lra. }
    destruct (IH n' (w / inject_Z 10)%Q (z - 1)%Z nines' down' up') as (z' & f & Ef & En).
    + lia.
    + rewrite Ez. exact Hn'.
    + exact Hw'.
    + rewrite Ez. replace (t - (z - 1))%Z with (t - z + 1)%Z by lia. exact Hnines'.
    + rewrite Ez. exact Hdown'.
    + exact Hup'.
    + exact Go.
    + replace (z - 1 - Z.of_nat (S fuel) + 1)%Z with (z - Z.of_nat (S (S fuel)) + 1)%Z by lia. exact Hf.
    + lia.
    + rewrite Ez in Ef. eauto.
  - apply orb_false_elim in Go. destruct Go as [Gd Gu]. rewrite Gd in Hdown'. rewrite Gu in Hup'.
    exists z. eexists. split; [reflexivity|]. constructor; cbn [weight digits num digit all_nines].
    + exact Hz.
    + exact Hw.
    + reflexivity.
    + exact Hn'.
    + split; [exact W|exact D].
    + exact Hnines'.
    + exact Hdown'.
    + destruct Hup' as (j & Hj & H). exists j. split; [lia|exact H].
    + apply orb_prop in Hgo. destruct Hgo as [->| ->]; [left; exact Hdown|right; exact Hup].
Qed.

Lemma loop_ok x t X eps fuel : bpow ten t <= x < bpow ten (t + 1) -> Q2R X = x ->
  bpow ten (t - Z.of_nat fuel + 1) <= Q2R eps -> (0 < fuel)%nat ->
  exists z f, digit_loop fuel eps X (qpow 10 t) 0 true true true = Ok f /\ ends x (Q2R eps) t z f.
Proof.
  intros Hx HX Hf Hp. pose proof (bpow_gt_0 ten t) as P.
  assert (W : whole x (t + 1) = 0%Z) by (apply whole_unique; lra).
  assert (R : rest x (t + 1) = x) by (unfold rest; rewrite W; lra).
  destruct (digit_loop_ok x t eps ltac:(lra) ltac:(lra) fuel X (qpow 10 t) t true true true) as (z & f & E & N).
  - lia.
  - rewrite R. exact HX.
  - exact (Q2R_qpow ten t).
  - rewrite W, Z.sub_diag. reflexivity.
  - intros j Hj. lia.
  - intros j Hj. lia.
  - reflexivity.
  - exact Hf.
  - exact Hp.
  - rewrite W in E. eauto.
Qed.
