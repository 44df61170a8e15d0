(** How close to the number written the struct real is. *)
From Coq Require Import Reals Lra ZifyBool.
From Flocq Require Import Core.
From Verif Require Import Base Digits Real RealSpec RealProofs RealApprox.
Open Scope R_scope.

(** ** Small integers *)

Definition from_int_check (d : Z) : bool :=
  let r := from_int d in
  ((sig r =? d * 2 ^ (159 - exp r)) && (0 <=? exp r) && (exp r <=? 5) && (sign r =? 1)
   && (2 ^ 159 <=? sig r) && (sig r <? 2 ^ 160))%Z.

Lemma from_int_checked : forallb (fun n => from_int_check (Z.of_nat n)) (seq 1 36) = true.
Proof. vm_compute. reflexivity. Qed.

Lemma from_int_ok d : (1 <= d <= 36)%Z ->
  norm (from_int d) /\ (0 <= exp (from_int d) <= 5)%Z /\ V (from_int d) = IZR d.
Proof.
  intros Hd. pose proof from_int_checked as H. rewrite forallb_forall in H.
  specialize (H (Z.to_nat d) ltac:(apply in_seq; lia)). cbv beta in H. rewrite Z2Nat.id in H by lia.
  unfold from_int_check in H. set (r := from_int d) in *. cbv zeta in H.
  rewrite !andb_true_iff, !Z.eqb_eq, !Z.leb_le, Z.ltb_lt in H.
  destruct H as (((((H1 & H2) & H3) & H4) & H5) & H6).
  split; [|split; [lia|]].
  - split; [|exact H4]. change full with (2 ^ 160)%Z. rewrite top_eq. lia.
  - unfold V. rewrite H1, mult_IZR, IZR_pow2, Rmult_assoc, <- bpow_plus by lia.
    replace (159 - exp r + (exp r - 159))%Z with 0%Z by lia. cbn. ring.
Qed.

(** ** Products of numbers rounded down *)

Lemma small_count n : 0 <= n -> n <= bpow radix2 100 -> n * eps <= / 4.
Proof.
  intros H1 H2. Transparent eps. unfold eps. Opaque eps.
  apply Rle_trans with (bpow radix2 100 * bpow radix2 (-150)).
  - apply Rmult_le_compat_r; [apply bpow_ge_0|exact H2].
  - rewrite <- bpow_plus. apply Rle_trans with (bpow radix2 (-2)).
    + apply bpow_le. lia.
    + cbn. lra.
Qed.

Lemma near_mul A B v w q p t : 0 <= A -> 0 <= B -> A * eps <= / 4 -> B * eps <= / 4 -> 0 <= q -> 0 <= p ->
  near A v q -> near B w p -> v * w * (1 - eps) <= t <= v * w -> near (A + B + 1) t (q * p).
Proof.
  intros HA HB HA4 HB4 Hq Hp [Hv1 Hv2] [Hw1 Hw2] [Ht1 Ht2]. pose proof eps_pos as He.
  assert (HAe : 0 <= A * eps) by (apply Rmult_le_pos; lra).
  assert (HBe : 0 <= B * eps) by (apply Rmult_le_pos; lra).
  assert (He1 : eps <= / 4).
  { rewrite <- (Rmult_1_l eps). apply small_count; [lra|]. apply Rle_trans with (bpow radix2 0); [cbn; lra|apply bpow_le; lia]. }
  assert (Hv0 : 0 <= v) by (apply Rle_trans with (q * (1 - A * eps)); [apply Rmult_le_pos; lra|lra]).
  assert (Hw0 : 0 <= w) by (apply Rle_trans with (p * (1 - B * eps)); [apply Rmult_le_pos; lra|lra]).
  assert (Hqp : 0 <= q * p) by (apply Rmult_le_pos; lra).
  split.
  - apply Rle_trans with (v * w * (1 - eps)); [|lra].
    apply Rle_trans with ((q * (1 - A * eps)) * (p * (1 - B * eps)) * (1 - eps)).
    + replace ((q * (1 - A * eps)) * (p * (1 - B * eps)) * (1 - eps))
        with ((q * p) * ((1 - A * eps) * (1 - B * eps) * (1 - eps))) by ring.
      apply Rmult_le_compat_l; [exact Hqp|].
      set (a := A * eps) in *. set (b := B * eps) in *.
      replace ((A + B + 1) * eps) with (a + b + eps) by (unfold a, b; ring).
      assert (0 <= a * b) by (apply Rmult_le_pos; lra).
      assert (0 <= (a + b) * eps) by (apply Rmult_le_pos; lra).
      assert (0 <= a * b * (1 - eps)) by (apply Rmult_le_pos; lra).
      lra.
    + apply Rmult_le_compat_r; [lra|]. apply Rmult_le_compat; try lra; apply Rmult_le_pos; lra.
  - apply Rle_trans with (v * w); [lra|]. apply Rmult_le_compat; lra.
Qed.

Lemma near_lower A v q : A * eps <= / 4 -> 1 <= q -> near A v q -> / 2 <= v.
Proof.
  intros HA Hq [H1 _]. apply Rle_trans with (q * (1 - A * eps)); [|exact H1].
  apply Rle_trans with (1 * (1 - A * eps)); [lra|]. apply Rmult_le_compat_r; lra.
Qed.

Lemma near_exp r A q M : norm r -> A * eps <= / 4 -> 1 <= q <= bpow radix2 M -> near A (V r) q ->
  (-1 <= exp r <= M)%Z.
Proof.
  intros Hr HA Hq HN. split.
  - apply exp_above; [exact Hr|]. pose proof (near_lower _ _ _ HA (proj1 Hq) HN). cbn. lra.
  - apply exp_below; [exact Hr|]. destruct HN. lra.
Qed.

Lemma do_mul_near r s A B q p M : norm r -> norm s -> (0 <= M <= 2 ^ 29)%Z ->
  0 <= A <= bpow radix2 100 -> 0 <= B <= bpow radix2 100 -> 1 <= q -> 1 <= p -> q * p <= bpow radix2 M ->
  near A (V r) q -> near B (V s) p ->
  exists t, do_mul r s = Ok t /\ norm t /\ near (A + B + 1) (V t) (q * p).
Proof.
  intros Hr Hs HM HA HB Hq Hp HqM HNr HNs.
  pose proof (small_count A ltac:(lra) ltac:(lra)) as HA4.
  pose proof (small_count B ltac:(lra) ltac:(lra)) as HB4.
  assert (q <= q * p) by (rewrite <- (Rmult_1_r q) at 1; apply Rmult_le_compat_l; lra).
  assert (p <= q * p) by (rewrite <- (Rmult_1_l p) at 1; apply Rmult_le_compat_r; lra).
  pose proof (near_exp r A q M Hr HA4 ltac:(lra) HNr).
  pose proof (near_exp s B p M Hs HB4 ltac:(lra) HNs).
  destruct (mul_V r s Hr Hs) as (t & HE & Ht & HV); [apply in_int_iff; lia|apply in_int_iff; lia|].
  exists t. split; [exact HE|]. split; [exact Ht|].
  apply near_mul with (V r) (V s); lra || assumption.
Qed.

Lemma mul_near r s A B q p M : norm r -> norm s -> (0 <= M <= 2 ^ 29)%Z ->
  0 <= A <= bpow radix2 100 -> 0 <= B <= bpow radix2 100 -> 1 <= q -> 1 <= p -> q * p <= bpow radix2 M ->
  near A (V r) q -> near B (V s) p ->
  exists t, mul r s = Ok t /\ norm t /\ near (A + B + 1) (V t) (q * p).
Proof.
  intros Hr Hs. unfold mul. rewrite (proj2 Hr), (proj2 Hs). cbn [Z.eqb]. apply do_mul_near; assumption.
Qed.

(** ** Powers *)

Lemma powi_near M k : (0 <= M <= 2 ^ 29)%Z -> forall out r A B q p,
  norm out -> norm r -> 0 <= A -> 0 <= B -> A + (B + 1) * IZR (Zpos k) <= bpow radix2 100 ->
  1 <= q -> 1 <= p -> q * p ^ Pos.to_nat k <= bpow radix2 M ->
  near A (V out) q -> near B (V r) p ->
  exists t, powi_loop k out r = Ok t /\ norm t /\ near (A + (B + 1) * IZR (Zpos k)) (V t) (q * p ^ Pos.to_nat k).
Proof.
  intros HM. induction k as [k IH|k IH|]; intros out r A B q p Ho Hr HA HB HAB Hq Hp HqM HNo HNr; cbn [powi_loop].
  - rewrite Pos2Nat.inj_xI in *.
    rewrite <- tech_pow_Rmult, pow_mult in *.
    replace (p ^ 2) with (p * p) in * by ring.
    assert (Hk : 1 <= IZR (Zpos k)) by (apply IZR_le; lia).
    rewrite Pos2Z.inj_xI, plus_IZR, mult_IZR in HAB.
    assert (HB1 : 0 <= (B + 1) * IZR (Zpos k)) by (apply Rmult_le_pos; lra).
    assert (HB2 : B + 1 <= (B + 1) * IZR (Zpos k)) by (rewrite <- (Rmult_1_r (B + 1)) at 1; apply Rmult_le_compat_l; lra).
    assert (Hpp : 1 <= p * p) by (rewrite <- (Rmult_1_r 1) at 1; apply Rmult_le_compat; lra).
    assert (Hpk : p * p <= (p * p) ^ Pos.to_nat k).
    { rewrite <- (pow_1 (p * p)) at 1. apply Rle_pow; [exact Hpp|lia]. }
    assert (HqM' : q * p * (p * p) ^ Pos.to_nat k <= bpow radix2 M) by (rewrite Rmult_assoc; exact HqM).
    assert (Hqp : 1 <= q * p) by (rewrite <- (Rmult_1_r 1) at 1; apply Rmult_le_compat; lra).
    assert (HqpM : q * p <= bpow radix2 M).
    { eapply Rle_trans; [|exact HqM']. rewrite <- (Rmult_1_r (q * p)) at 1. apply Rmult_le_compat_l; lra. }
    assert (HppM : p * p <= bpow radix2 M).
    { eapply Rle_trans; [|exact HqM']. apply Rle_trans with (1 * (p * p) ^ Pos.to_nat k); [lra|].
      apply Rmult_le_compat_r; lra. }
    destruct (mul_near out r A B q p M) as (o2 & -> & Ho2 & HNo2); try assumption; try lra.
    cbn [obind].
    destruct (mul_near r r B B p p M) as (r2 & -> & Hr2 & HNr2); try assumption; try lra.
    cbn [obind].
    destruct (IH o2 r2 (A + B + 1) (B + B + 1) (q * p) (p * p)) as (t & HE & Ht & HNt); try assumption; try lra.
    exists t. split; [exact HE|]. split; [exact Ht|].
    replace (A + (B + 1) * IZR (Z.pos k~1)) with (A + B + 1 + (B + B + 1 + 1) * IZR (Z.pos k))
      by (rewrite Pos2Z.inj_xI, plus_IZR, mult_IZR; ring).
    rewrite <- Rmult_assoc. exact HNt.
  - rewrite Pos2Nat.inj_xO in *. rewrite pow_mult in *.
    replace (p ^ 2) with (p * p) in * by ring.
    assert (Hk : 1 <= IZR (Zpos k)) by (apply IZR_le; lia).
    rewrite Pos2Z.inj_xO, mult_IZR in HAB.
    assert (HB2 : B + 1 <= (B + 1) * IZR (Zpos k)) by (rewrite <- (Rmult_1_r (B + 1)) at 1; apply Rmult_le_compat_l; lra).
    assert (Hpp : 1 <= p * p) by (rewrite <- (Rmult_1_r 1) at 1; apply Rmult_le_compat; lra).
    assert (Hpk : p * p <= (p * p) ^ Pos.to_nat k).
    { rewrite <- (pow_1 (p * p)) at 1. apply Rle_pow; [exact Hpp|lia]. }
    assert (HppM : p * p <= bpow radix2 M).
    { eapply Rle_trans; [|exact HqM]. apply Rle_trans with (1 * (p * p) ^ Pos.to_nat k); [lra|].
      apply Rmult_le_compat_r; lra. }
    destruct (mul_near r r B B p p M) as (r2 & -> & Hr2 & HNr2); try assumption; try lra.
    cbn [obind].
    destruct (IH out r2 A (B + B + 1) q (p * p)) as (t & HE & Ht & HNt); try assumption; try lra.
    exists t. split; [exact HE|]. split; [exact Ht|].
    replace (A + (B + 1) * IZR (Z.pos k~0)) with (A + (B + B + 1 + 1) * IZR (Z.pos k))
      by (rewrite Pos2Z.inj_xO, mult_IZR; ring).
    exact HNt.
  - change (Pos.to_nat 1) with 1%nat in *. rewrite pow_1 in *.
    destruct (mul_near out r A B q p M) as (t & HE & Ht & HNt); try assumption; try lra.
    exists t. split; [exact HE|]. split; [exact Ht|].
    replace (A + (B + 1) * 1) with (A + B + 1) by ring. exact HNt.
Qed.

(** ** Digits *)

(** What has been read of a number. *)
Definition reads (n : real) (N : Z) (k : R) : Prop :=
  (N = 0%Z /\ n = zero) \/ ((1 <= N)%Z /\ norm n /\ near k (V n) (IZR N)).

Lemma near_weak k k' v q : k <= k' -> 0 <= q -> near k v q -> near k' v q.
Proof.
  intros Hk Hq [H1 H2]. pose proof eps_pos. split; [|exact H2].
  eapply Rle_trans; [|exact H1]. apply Rmult_le_compat_l; [exact Hq|].
  assert (k * eps <= k' * eps) by (apply Rmult_le_compat_r; lra). lra.
Qed.

Lemma near_0 v : near 0 v v.
Proof. unfold near. lra. Qed.

Lemma scan_step base d n N k M : (2 <= base <= 36)%Z -> (0 <= d < base)%Z -> (0 <= N)%Z ->
  0 <= k -> k + 1 <= bpow radix2 99 -> IZR (N * base + d) <= bpow radix2 M -> (0 <= M <= 2 ^ 29)%Z ->
  reads n N k ->
  exists a b, mul_int n base = Ok a /\ add_int a d = Ok b /\ reads b (N * base + d) (k + 2).
Proof.
  intros Hb Hd HN0 Hk Hk2 HM HMr HR. unfold mul_int.
  destruct (Z.eqb_spec base 0) as [|_]; [lia|].
  assert (H100 : bpow radix2 99 <= bpow radix2 100) by (apply bpow_le; lia).
  destruct HR as [[-> ->]|(HN & Hn & Hnear)].
  - cbn [sign zero Z.eqb]. exists zero. unfold add_int. cbn [sign zero Z.eqb].
    destruct (Z.eqb_spec d 0) as [->|Hd0].
    + exists zero. split; [reflexivity|]. split; [reflexivity|]. left. split; reflexivity.
    + exists (from_int d). split; [reflexivity|]. split; [reflexivity|]. right.
      destruct (from_int_ok d ltac:(lia)) as (H1 & _ & H3).
      split; [lia|]. split; [exact H1|]. rewrite H3. cbn [Z.mul Z.add].
      apply near_weak with 0; [lra|apply IZR_le; lia|apply near_0].
  - rewrite (proj2 Hn). cbn [Z.eqb].
    destruct (from_int_ok base ltac:(lia)) as (Hb1 & _ & Hb3).
    assert (HN1 : 1 <= IZR N) by (apply IZR_le; lia).
    assert (Hb4 : 1 <= IZR base) by (apply IZR_le; lia).
    assert (Hd4 : 0 <= IZR d) by (apply IZR_le; lia).
    rewrite plus_IZR, mult_IZR in HM.
    destruct (do_mul_near n (from_int base) k 0 (IZR N) (IZR base) M) as (a & -> & Ha & Han); try assumption; try lra.
    { rewrite Hb3. apply near_0. }
    exists a. unfold add_int.
    destruct (Z.eqb_spec d 0) as [->|Hd0].
    + exists a. split; [reflexivity|]. split; [reflexivity|]. right.
      split; [lia|]. split; [exact Ha|]. rewrite Z.add_0_r, mult_IZR.
      apply near_weak with (k + 0 + 1); [lra| |exact Han]. apply Rmult_le_pos; lra.
    + rewrite (proj2 Ha). cbn [Z.eqb].
      destruct (from_int_ok d ltac:(lia)) as (H1 & H2 & H3).
      assert (Hq1 : 1 <= IZR N * IZR base) by (rewrite <- (Rmult_1_r 1) at 1; apply Rmult_le_compat; lra).
      pose proof (small_count (k + 0 + 1) ltac:(lra) ltac:(lra)) as Hk4.
      pose proof (near_exp a (k + 0 + 1) (IZR N * IZR base) M Ha Hk4 ltac:(lra) Han).
      destruct (add_V a (from_int d) Ha H1) as (b & HE & Hbn & HV).
      { apply in_int_iff. lia. }
      { apply in_int_iff. lia. }
      exists b. split; [reflexivity|]. split; [exact HE|]. right. split; [nia|]. split; [exact Hbn|].
      rewrite H3 in HV. rewrite plus_IZR, mult_IZR. destruct Han as [Ha1 Ha2].
      pose proof eps_pos as Hep.
      set (q := IZR N * IZR base) in *. set (x := IZR d) in *.
      assert (Hk5 : 0 <= (k + 1) * eps) by (apply Rmult_le_pos; lra).
      replace (k + 0 + 1) with (k + 1) in * by ring.
      split; [|lra].
      apply Rle_trans with ((V a + x) * (1 - eps)); [|lra].
      apply Rle_trans with ((q * (1 - (k + 1) * eps) + x) * (1 - eps)).
      * assert (0 <= q * ((k + 1) * eps) * eps) by (apply Rmult_le_pos; [apply Rmult_le_pos; lra|lra]).
        assert (0 <= x * ((k + 1) * eps)) by (apply Rmult_le_pos; lra).
        replace ((q * (1 - (k + 1) * eps) + x) * (1 - eps))
          with ((q + x) * (1 - (k + 2) * eps) + q * ((k + 1) * eps) * eps + x * ((k + 1) * eps)) by ring.
        lra.
      * apply Rmult_le_compat_r; [|lra].
        pose proof (small_count 1 ltac:(lra)) as He4.
        assert (1 * eps <= / 4). { apply He4. apply Rle_trans with (bpow radix2 0); [cbn; lra|apply bpow_le; lia]. }
        lra.
Qed.

(** The integer read so far and the rest of the digits. *)
Definition number_from (base : Z) (ds : list Z) (N : Z) : Z := fold_left (fun n d => n * base + d)%Z ds N.

Lemma number_from_ge base ds N : (2 <= base)%Z -> Forall (fun d => 0 <= d < base)%Z ds -> (0 <= N)%Z ->
  (N <= number_from base ds N)%Z.
Proof.
  intros Hb H. revert N. induction H as [|d ds Hd Hds IH]; intros N HN; cbn; [lia|].
  specialize (IH (N * base + d)%Z ltac:(nia)). unfold number_from in IH. nia.
Qed.

Lemma scan_reads base ds M : (2 <= base <= 36)%Z -> Forall (fun d => 0 <= d < base)%Z ds -> (0 <= M <= 2 ^ 29)%Z ->
  forall n N k, (0 <= N)%Z -> 0 <= k -> k + 2 * IZR (Z.of_nat (length ds)) <= bpow radix2 98 ->
  IZR (number_from base ds N) <= bpow radix2 M -> reads n N k ->
  exists n', scan base ds n = Ok n' /\ reads n' (number_from base ds N) (k + 2 * IZR (Z.of_nat (length ds))).
Proof.
  intros Hb H HMr. induction H as [|d ds Hd Hds IH]; intros n N k HN Hk Hk2 HM HR; cbn [scan].
  - exists n. split; [reflexivity|]. cbn. replace (k + 2 * 0) with k by ring. exact HR.
  - assert (HN' : (0 <= N * base + d)%Z) by nia.
    pose proof (number_from_ge base ds (N * base + d) ltac:(lia) Hds HN') as Hge.
    cbn [length] in *. rewrite Nat2Z.inj_succ, succ_IZR in *.
    assert (Hl : 0 <= IZR (Z.of_nat (length ds))) by (apply IZR_le; lia).
    assert (bpow radix2 98 + 1 <= bpow radix2 99).
    { replace 99%Z with (1 + 98)%Z by lia. rewrite bpow_plus. cbn [bpow Z.pow_pos Pos.iter radix_val radix2 Z.mul Pos.mul].
      assert (1 <= bpow radix2 98) by (apply Rle_trans with (bpow radix2 0); [cbn; lra|apply bpow_le; lia]).
      change (bpow radix2 1) with 2. lra. }
    destruct (scan_step base d n N k M) as (a & b & E1 & E2 & HR'); try assumption; try lra.
    { apply Rle_trans with (IZR (number_from base (d :: ds) N)); [|exact HM]. apply IZR_le. exact Hge. }
    rewrite E1. cbn [obind]. rewrite E2. cbn [obind].
    destruct (IH b (N * base + d)%Z (k + 2)) as (n' & E3 & HR3); try assumption; try lra.
    exists n'. split; [exact E3|].
    replace (k + 2 * (IZR (Z.of_nat (length ds)) + 1)) with (k + 2 + 2 * IZR (Z.of_nat (length ds))) by ring.
    exact HR3.
Qed.

(** ** The whole literal *)

Lemma number_app base l1 l2 : number base (l1 ++ l2) = number_from base l2 (number base l1).
Proof. unfold number, number_from. apply fold_left_app. Qed.

Lemma number_from_lt base ds N : (2 <= base)%Z -> Forall (fun d => 0 <= d < base)%Z ds -> (0 <= N)%Z ->
  (number_from base ds N < (N + 1) * base ^ Z.of_nat (length ds))%Z.
Proof.
  intros Hb H. revert N. induction H as [|d ds Hd Hds IH]; intros N HN.
  - cbn. lia.
  - change (number_from base (d :: ds) N) with (number_from base ds (N * base + d)).
    specialize (IH (N * base + d)%Z ltac:(nia)). cbn [length].
    rewrite Nat2Z.inj_succ, Z.pow_succ_r by lia.
    assert (0 < base ^ Z.of_nat (length ds))%Z by (apply Z.pow_pos_nonneg; lia).
    apply Z.lt_le_trans with ((N * base + d + 1) * base ^ Z.of_nat (length ds))%Z; [exact IH|].
    replace ((N + 1) * (base * base ^ Z.of_nat (length ds)))%Z
      with ((N * base + base) * base ^ Z.of_nat (length ds))%Z by ring.
    apply Z.mul_le_mono_nonneg_r; lia.
Qed.

Lemma base_pow base n : (2 <= base <= 36)%Z -> (0 <= n)%Z -> IZR base ^ Z.to_nat n <= bpow radix2 (6 * n).
Proof.
  intros Hb Hn. rewrite <- (IZR_Zpower radix2) by lia. rewrite pow_IZR. apply IZR_le.
  change (radix_val radix2) with 2%Z. rewrite Z.pow_mul_r by lia. rewrite Z2Nat.id by lia.
  apply Z.pow_le_mono_l. lia.
Qed.

Lemma scan_uint_small ds N : Forall (fun d => 0 <= d < 10)%Z ds -> (0 <= N)%Z ->
  (number_from 10 ds N < 2 ^ 31)%Z -> scan_uint 10 ds N = number_from 10 ds N.
Proof.
  intros H. revert N. induction H as [|d ds Hd Hds IH]; intros N HN HB; cbn [scan_uint].
  - reflexivity.
  - change (number_from 10 (d :: ds) N) with (number_from 10 ds (N * 10 + d)) in *.
    pose proof (number_from_ge 10 ds (N * 10 + d) ltac:(lia) Hds ltac:(lia)) as Hge.
    assert (uwrap64 (uwrap64 (N * 10) + d) = N * 10 + d)%Z as ->.
    { unfold uwrap64. rewrite (Z.mod_small (N * 10)) by lia. apply Z.mod_small. lia. }
    apply IH; lia.
Qed.

Lemma exponent_of_ok nf ex : exponent_ok ex -> (Z.abs (exponent ex) < 2 ^ 31)%Z ->
  exponent_of nf ex = (exponent ex - nf)%Z.
Proof.
  intros Hok Hb. destruct ex as [[sg ds]|]; cbn [exponent exponent_of exponent_ok] in *; [|lia].
  assert (HB : (0 <= number 10 ds)%Z) by (apply (number_from_ge 10 ds 0); auto; lia).
  assert (scan_uint 10 ds 0 = number 10 ds) as E.
  { apply scan_uint_small; [exact Hok|lia|]. change (number_from 10 ds 0) with (number 10 ds). destruct sg; lia. }
  rewrite E.
  assert (wrap32 (number 10 ds) = number 10 ds) as ->.
  { unfold wrap32. rewrite Z.mod_small; destruct sg; lia. }
  destruct sg; lia.
Qed.

Lemma count_eps k : 0 <= k <= bpow radix2 20 -> k * eps <= bpow radix2 (-130).
Proof.
  intros Hk. Transparent eps. unfold eps. Opaque eps.
  apply Rle_trans with (bpow radix2 20 * bpow radix2 (-150)).
  - apply Rmult_le_compat_r; [apply bpow_ge_0|lra].
  - rewrite <- bpow_plus. apply bpow_le. lia.
Qed.

Lemma near_abs k v q : 0 <= k <= bpow radix2 20 -> 0 <= q -> near k v q ->
  Rabs (v - q) <= q * bpow radix2 (-130).
Proof.
  intros Hk Hq [H1 H2]. pose proof (count_eps k Hk) as H3.
  assert (q * (k * eps) <= q * bpow radix2 (-130)) by (apply Rmult_le_compat_l; lra).
  rewrite Rabs_left1 by lra. lra.
Qed.

Lemma near_div A B v w q p t : 0 <= A <= bpow radix2 18 -> 0 <= B <= bpow radix2 18 -> 0 <= q -> 0 < p -> 0 < w ->
  near A v q -> near B w p -> v / w * (1 - eps) <= t <= v / w ->
  Rabs (t - q / p) <= q / p * bpow radix2 (-130).
Proof.
  intros HA HB Hq Hp Hw [Hv1 Hv2] [Hw1 Hw2] [Ht1 Ht2]. pose proof eps_pos as He.
  assert (H18 : 2 * bpow radix2 18 + 1 <= bpow radix2 20).
  { change (bpow radix2 18) with (IZR (2 ^ 18)). change (bpow radix2 20) with (IZR (2 ^ 20)).
    rewrite <- mult_IZR, <- plus_IZR. apply IZR_le. lia. }
  pose proof (count_eps (A + 1) ltac:(lra)) as HA1.
  pose proof (count_eps (2 * B) ltac:(lra)) as HB1.
  assert (H130 : bpow radix2 (-130) <= / 4).
  { apply Rle_trans with (bpow radix2 (-2)); [apply bpow_le; lia|cbn; lra]. }
  assert (HAe : 0 <= A * eps) by (apply Rmult_le_pos; lra).
  assert (HBe : 0 <= B * eps) by (apply Rmult_le_pos; lra).
  set (Q := q / p) in *.
  assert (HQ : 0 <= Q) by (apply Rmult_le_pos; [lra|left; apply Rinv_0_lt_compat; lra]).
  assert (Hq' : q = Q * p) by (unfold Q; field; lra).
  set (X := v / w) in *. assert (Hv' : v = X * w) by (unfold X; field; lra).
  assert (HX1 : Q * (1 - A * eps) <= X).
  { apply Rmult_le_reg_r with w; [exact Hw|]. rewrite <- Hv'.
    apply Rle_trans with (q * (1 - A * eps)); [|exact Hv1]. rewrite Hq'.
    replace (Q * p * (1 - A * eps)) with (Q * (1 - A * eps) * p) by ring.
    apply Rmult_le_compat_l; [apply Rmult_le_pos; lra|lra]. }
  assert (HX2 : X <= Q * (1 + 2 * (B * eps))).
  { apply Rmult_le_reg_r with w; [exact Hw|]. rewrite <- Hv'.
    apply Rle_trans with q; [exact Hv2|]. rewrite Hq'.
    apply Rle_trans with (Q * (1 + 2 * (B * eps)) * (p * (1 - B * eps))).
    - replace (Q * (1 + 2 * (B * eps)) * (p * (1 - B * eps)))
        with (Q * p * ((1 + 2 * (B * eps)) * (1 - B * eps))) by ring.
      rewrite <- (Rmult_1_r (Q * p)) at 1. apply Rmult_le_compat_l; [rewrite <- Hq'; lra|].
      assert (0 <= (B * eps) * (1 - 2 * (B * eps))) by (apply Rmult_le_pos; lra). lra.
    - apply Rmult_le_compat_l; [apply Rmult_le_pos; lra|exact Hw1]. }
  assert (HQb : Q * ((A + 1) * eps) <= Q * bpow radix2 (-130)) by (apply Rmult_le_compat_l; lra).
  assert (HQb2 : Q * (2 * B * eps) <= Q * bpow radix2 (-130)) by (apply Rmult_le_compat_l; lra).
  apply Rabs_le. split.
  - assert (Q * (1 - A * eps) * (1 - eps) <= X * (1 - eps)) by (apply Rmult_le_compat_r; lra).
    assert (0 <= Q * (A * eps) * eps) by (apply Rmult_le_pos; [apply Rmult_le_pos; lra|lra]).
    lra.
  - lra.
Qed.

Definition close (r : real) (q : R) : Prop :=
  (q = 0 /\ sig r = 0%Z) \/ (0 < q /\ norm r /\ Rabs (V r - q) <= q * bpow radix2 (-130)).

Lemma scan_float_ok base ints fracs ex :
  literal_ok base ints fracs -> exponent_ok ex ->
  (Z.of_nat (length (ints ++ fracs)) <= 65536)%Z -> (Z.abs (exponent ex) <= 65536)%Z ->
  exists r, scan_float base ints fracs ex = Ok r /\ close r (written base ints fracs ex).
Proof.
  intros (Hb & Hds) Hex HL HE. unfold scan_float.
  assert (HM0 : exists M0, (M0 = 6 * 65536)%Z) by eauto. destruct HM0 as [M0 HM0].
  assert (HM1 : exists M1, (M1 = 6 * 131072)%Z) by eauto. destruct HM1 as [M1 HM1].
  rewrite Forall_app in Hds. destruct Hds as [Hi Hf].
  rewrite app_length, Nat2Z.inj_add in HL.
  set (L := (Z.of_nat (length ints) + Z.of_nat (length fracs))%Z) in *.
  assert (HN1 : (0 <= number base ints)%Z) by (apply (number_from_ge base ints 0); auto; lia).
  pose proof (number_from_ge base fracs (number base ints) ltac:(lia) Hf HN1) as HN2.
  assert (HM : IZR (number base (ints ++ fracs)) <= bpow radix2 M0).
  { apply Rle_trans with (bpow radix2 (6 * L)); [|apply bpow_le; lia].
    eapply Rle_trans; [|apply (base_pow base L); [exact Hb|lia]].
    rewrite pow_IZR. apply IZR_le. rewrite Z2Nat.id by lia.
    assert (Forall (fun d => 0 <= d < base)%Z (ints ++ fracs)) as Ha by (apply Forall_app; auto).
    pose proof (number_from_lt base (ints ++ fracs) 0 ltac:(lia) Ha ltac:(lia)) as H.
    rewrite app_length, Nat2Z.inj_add in H. fold L in H.
    change (number_from base (ints ++ fracs) 0) with (number base (ints ++ fracs)) in H. lia. }
  rewrite number_app in HM.
  assert (Hlb : forall n, (Z.of_nat n <= 65536)%Z -> 2 * IZR (Z.of_nat n) <= bpow radix2 17).
  { intros n Hn. change (bpow radix2 17) with (IZR (2 * 65536)). rewrite mult_IZR.
    apply Rmult_le_compat_l; [lra|]. apply IZR_le. lia. }
  assert (H1798 : bpow radix2 17 + bpow radix2 17 <= bpow radix2 98).
  { apply Rle_trans with (bpow radix2 18); [|apply bpow_le; lia].
    change (bpow radix2 17) with (IZR (2 ^ 17)). change (bpow radix2 18) with (IZR (2 ^ 18)).
    rewrite <- plus_IZR. apply IZR_le. lia. }
  pose proof (Hlb (length ints) ltac:(lia)) as Hl1. pose proof (Hlb (length fracs) ltac:(lia)) as Hl2.
  pose proof (bpow_ge_0 radix2 17) as Hp17.
  destruct (scan_reads base ints M0 Hb Hi ltac:(lia) zero 0%Z 0) as (n1 & -> & HR1);
    [lia|lra|lra| |left; split; reflexivity|].
  { change (number_from base ints 0) with (number base ints).
    apply Rle_trans with (IZR (number_from base fracs (number base ints))); [apply IZR_le; lia|exact HM]. }
  cbn [obind]. change (number_from base ints 0) with (number base ints) in HR1.
  assert (Hk1 : 0 <= IZR (Z.of_nat (length ints))) by (apply IZR_le; lia).
  assert (Hk2 : 0 <= IZR (Z.of_nat (length fracs))) by (apply IZR_le; lia).
  destruct (scan_reads base fracs M0 Hb Hf ltac:(lia) n1 (number base ints) (0 + 2 * IZR (Z.of_nat (length ints))) HN1
              ltac:(lra) ltac:(lra) HM HR1) as (num & -> & HR2).
  cbn [obind].
  rewrite (exponent_of_ok _ ex Hex) by lia.
  unfold written. rewrite number_app.
  set (e := (exponent ex - Z.of_nat (length fracs))%Z) in *.
  set (N := number_from base fracs (number base ints)) in *.
  set (k := 0 + 2 * IZR (Z.of_nat (length ints)) + 2 * IZR (Z.of_nat (length fracs))) in *.
  assert (Hk : 0 <= k <= bpow radix2 18).
  { unfold k. split; [lra|].
    assert (bpow radix2 17 + bpow radix2 17 = bpow radix2 18).
    { change (bpow radix2 17) with (IZR (2 ^ 17)). change (bpow radix2 18) with (IZR (2 ^ 18)).
      rewrite <- plus_IZR. reflexivity. }
    lra. }
  assert (Hk20 : bpow radix2 18 + bpow radix2 18 + 1 <= bpow radix2 20).
  { change (bpow radix2 18) with (IZR (2 ^ 18)). change (bpow radix2 20) with (IZR (2 ^ 20)).
    rewrite <- !plus_IZR. apply IZR_le. lia. }
  assert (He : (Z.abs e <= 131072)%Z) by lia.
  assert (in_int e = true) as -> by (apply in_int_iff; lia).
  assert (in_int (Z.abs e) = true) as -> by (apply in_int_iff; lia).
  cbn [negb].
  destruct (Z.eqb_spec e 0) as [He0|He0].
  - exists num. split; [reflexivity|]. rewrite He0. cbn [powerRZ]. rewrite Rmult_1_r.
    destruct HR2 as [[-> ->]|(HNp & Hn & Hnear)]; [left; split; reflexivity|right].
    split; [apply IZR_lt; lia|]. split; [exact Hn|].
    apply near_abs with k; [lra|apply IZR_le; lia|exact Hnear].
  - destruct (from_int_ok base ltac:(lia)) as (Hb1 & _ & Hb3).
    destruct (from_int_ok 1 ltac:(lia)) as (Ho1 & _ & Ho3).
    assert (Hb4 : 1 <= IZR base) by (apply IZR_le; lia).
    destruct (Z.abs e) as [|m|m] eqn:Em; [lia| |lia].
    assert (Hm : (Zpos m <= 131072)%Z) by lia.
    assert (HmR : 0 <= IZR (Zpos m) <= bpow radix2 18).
    { change (bpow radix2 18) with (IZR 262144). split; apply IZR_le; lia. }
    assert (HP : IZR base ^ Pos.to_nat m <= bpow radix2 M1).
    { rewrite <- Z2Nat.inj_pos. eapply Rle_trans; [apply (base_pow base (Zpos m)); [exact Hb|lia]|].
      apply bpow_le. lia. }
    assert (HP1 : 1 <= IZR base ^ Pos.to_nat m) by (apply pow_R1_Rle; exact Hb4).
    unfold powi.
    destruct (powi_near M1 m ltac:(lia) (from_int 1) (from_int base) 0 0 1 (IZR base))
      as (r & -> & Hr & HrN); try assumption; try lra.
    { apply Rle_trans with (bpow radix2 18); [lra|apply bpow_le; lia]. }
    { rewrite Ho3. apply near_0. }
    { rewrite Hb3. apply near_0. }
    cbn [obind]. rewrite Rmult_1_l in HrN.
    replace (0 + (0 + 1) * IZR (Zpos m)) with (IZR (Zpos m)) in HrN by ring.
    set (P := IZR base ^ Pos.to_nat m) in *.
    destruct (Z.ltb_spec e 0) as [Hneg|Hpos].
    + assert (e = Zneg m) as -> by lia. cbn [powerRZ]. fold P.
      unfold div at 1.
      destruct HR2 as [[HN0 ->]|(HNp & Hn & Hnear)].
      * rewrite (proj2 Hr). cbn [Z.eqb sign zero]. exists zero. split; [reflexivity|].
        left. rewrite HN0, Rmult_0_l. split; reflexivity.
      * assert (HNq : 1 <= IZR N) by (apply IZR_le; lia).
        pose proof (near_exp num k (IZR N) M0 Hn) as X1.
        specialize (X1 (small_count k ltac:(lra) ltac:(apply Rle_trans with (bpow radix2 18); [lra|apply bpow_le; lia])) ltac:(lra) Hnear).
        pose proof (near_exp r (IZR (Zpos m)) P M1 Hr) as X2.
        specialize (X2 (small_count _ ltac:(apply HmR) ltac:(apply Rle_trans with (bpow radix2 18); [lra|apply bpow_le; lia])) ltac:(lra) HrN).
        destruct (div_V num r Hn Hr) as (t & HD & Ht & HV); [apply in_int_iff; lia|apply in_int_iff; lia|].
        unfold div in HD. exists t. split; [exact HD|]. right.
        split; [apply Rmult_lt_0_compat; [lra|apply Rinv_0_lt_compat; lra]|].
        split; [exact Ht|].
        apply (near_div k (IZR (Zpos m)) (V num) (V r) (IZR N) P (V t)); try assumption; try lra.
        apply V_pos. exact Hr.
    + assert (e = Zpos m) as -> by lia. cbn [powerRZ]. fold P.
      destruct HR2 as [[HN0 ->]|(HNp & Hn & Hnear)].
      * unfold mul. cbn [Z.eqb sign zero]. exists zero. split; [reflexivity|].
        left. rewrite HN0, Rmult_0_l. split; reflexivity.
      * assert (HNq : 1 <= IZR N) by (apply IZR_le; lia).
        assert (H18100 : bpow radix2 18 <= bpow radix2 100) by (apply bpow_le; lia).
        destruct (mul_near num r k (IZR (Zpos m)) (IZR N) P (M0 + M1) Hn Hr) as (t & HD & Ht & HV);
          try assumption; try lra.
        { lia. }
        { rewrite bpow_plus. apply Rmult_le_compat; lra. }
        exists t. split; [exact HD|]. right.
        assert (0 < IZR N * P) by (apply Rmult_lt_0_compat; lra).
        split; [lra|]. split; [exact Ht|].
        apply near_abs with (k + IZR (Zpos m) + 1); [lra|lra|exact HV].
Qed.
