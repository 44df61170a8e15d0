(** From the struct real to the Float: the roundings. *)
From Coq Require Import Reals Lra ZifyBool.
From Flocq Require Import Core.
From Verif Require Import Base Digits Real RealSpec RealProofs RealApprox RealScan.
Open Scope R_scope.

(** ** The rounding of integers is that of Flocq *)

Lemma mag_Z z : (0 < z)%Z -> mag radix2 (IZR z) = (Z.log2 z + 1)%Z :> Z.
Proof.
  intros Hz. apply mag_unique. rewrite Rabs_pos_eq by (apply IZR_le; lia).
  pose proof (Z.log2_spec z Hz) as [H1 H2]. pose proof (Z.log2_nonneg z).
  replace (Z.log2 z + 1 - 1)%Z with (Z.log2 z) by lia. rewrite <- !IZR_pow2 by lia.
  split; [apply IZR_le; lia|apply IZR_lt; lia].
Qed.

Lemma rn_round p z : (0 < p)%Z -> (0 < z)%Z ->
  IZR (rn p z) = round radix2 (FLX_exp p) ZnearestE (IZR z).
Proof.
  intros Hp Hz. assert (HP : Prec_gt_0 p) by exact Hp. unfold rn. set (k := (Z.log2 z + 1 - p)%Z).
  destruct (Z.leb_spec k 0) as [Hk|Hk].
  - symmetry. apply round_generic; [auto with typeclass_instances|].
    apply generic_format_FLX. exists (Float radix2 z 0).
    + unfold F2R. cbn. ring.
    + cbn [Fnum]. rewrite Z.abs_eq by lia. pose proof (Z.log2_spec z Hz) as [_ H2].
      change (radix_val radix2) with 2%Z. eapply Z.lt_le_trans; [exact H2|]. apply Z.pow_le_mono_r; lia.
  - unfold round, F2R. cbn [Fnum Fexp].
    assert (Hc : cexp radix2 (FLX_exp p) (IZR z) = k).
    { unfold cexp, FLX_exp. rewrite mag_Z by exact Hz. reflexivity. }
    unfold scaled_mantissa. rewrite Hc.
    assert (H2k : (0 < 2 ^ k)%Z) by (apply Z.pow_pos_nonneg; lia).
    assert (Hx : IZR z * bpow radix2 (- k) = IZR z / IZR (2 ^ k)).
    { rewrite IZR_pow2, bpow_opp by lia. reflexivity. }
    rewrite Hx. rewrite mult_IZR, IZR_pow2 by lia. f_equal. f_equal.
    rewrite <- IZR_pow2 in * by lia.
    assert (HF : Zfloor (IZR z / IZR (2 ^ k)) = (z / 2 ^ k)%Z) by (apply Zfloor_div; lia).
    pose proof (Z.div_mod z (2 ^ k) ltac:(lia)) as Hdm.
    pose proof (Z.mod_pos_bound z (2 ^ k) H2k) as Hmb.
    set (q := (z / 2 ^ k)%Z) in *. set (r := (z mod 2 ^ k)%Z) in *.
    assert (H2kR : 0 < IZR (2 ^ k)) by (apply IZR_lt; lia).
    assert (Hfr : IZR z / IZR (2 ^ k) - IZR q = IZR r / IZR (2 ^ k)).
    { rewrite Hdm, plus_IZR, mult_IZR. field. lra. }
    assert (Hh : (2 ^ k = 2 * 2 ^ (k - 1))%Z) by (rewrite <- Z.pow_succ_r by lia; f_equal; lia).
    assert (HhR : IZR (2 ^ k) = 2 * IZR (2 ^ (k - 1))) by (rewrite Hh at 1; apply mult_IZR).
    assert (Hhp : (0 < 2 ^ (k - 1))%Z) by (apply Z.pow_pos_nonneg; lia).
    set (h := (2 ^ (k - 1))%Z) in *.
    assert (HhR' : 0 < IZR h) by (apply IZR_lt; lia).
    assert (HC : (r <> 0)%Z -> Zceil (IZR z / IZR (2 ^ k)) = (q + 1)%Z).
    { intros Hr. rewrite Zceil_floor_neq; [rewrite HF; reflexivity|]. rewrite HF. intros E.
      rewrite E in Hfr. assert (IZR r / IZR (2 ^ k) = 0) as E0 by lra.
      apply (Rmult_eq_compat_r (IZR (2 ^ k))) in E0. unfold Rdiv in E0.
      rewrite Rmult_assoc, Rinv_l, Rmult_1_r, Rmult_0_l in E0 by lra. apply eq_IZR in E0. lia. }
    unfold Znearest. rewrite HF, Hfr. symmetry.
    destruct (Rcompare_spec (IZR r / IZR (2 ^ k)) (/ 2)) as [Hlt|Heq|Hgt].
    + assert (r < h)%Z as Hrh.
      { apply lt_IZR. apply (Rmult_lt_compat_r (IZR (2 ^ k))) in Hlt; [|lra]. unfold Rdiv in Hlt.
        rewrite Rmult_assoc, Rinv_l, Rmult_1_r in Hlt by lra. lra. }
      destruct (Z.ltb_spec r h); [reflexivity|lia].
    + assert (r = h)%Z as Hrh.
      { apply eq_IZR. apply (Rmult_eq_compat_r (IZR (2 ^ k))) in Heq. unfold Rdiv in Heq.
        rewrite Rmult_assoc, Rinv_l, Rmult_1_r in Heq by lra. lra. }
      rewrite HC by lia. rewrite Hrh, Z.ltb_irrefl, Z.eqb_refl. cbn [orb andb].
      destruct (Z.even q); reflexivity.
    + assert (h < r)%Z as Hrh.
      { apply lt_IZR. apply (Rmult_gt_compat_r (IZR (2 ^ k))) in Hgt; [|lra]. unfold Rdiv in Hgt.
        rewrite Rmult_assoc, Rinv_l, Rmult_1_r in Hgt by lra. lra. }
      rewrite HC by lia. destruct (Z.ltb_spec r h); [lia|]. destruct (Z.eqb_spec r h); [lia|]. reflexivity.
Qed.

Lemma rn_0 p : (0 < p)%Z -> rn p 0 = 0%Z.
Proof. intros Hp. unfold rn. cbn [Z.log2]. destruct (Z.leb_spec (0 + 1 - p) 0); [reflexivity|lia]. Qed.

(** Roundings with a number of bits do not depend on the scale. *)
Lemma round_scale p x e : (0 < p)%Z -> x <> 0 ->
  round radix2 (FLX_exp p) ZnearestE (x * bpow radix2 e) = round radix2 (FLX_exp p) ZnearestE x * bpow radix2 e.
Proof.
  intros Hp Hx. unfold round, F2R. cbn [Fnum Fexp].
  assert (Hc : cexp radix2 (FLX_exp p) (x * bpow radix2 e) = (cexp radix2 (FLX_exp p) x + e)%Z).
  { unfold cexp, FLX_exp. rewrite mag_mult_bpow by exact Hx. lia. }
  unfold scaled_mantissa. rewrite Hc, bpow_plus.
  replace (x * bpow radix2 e * bpow radix2 (- (cexp radix2 (FLX_exp p) x + e)))
    with (x * bpow radix2 (- cexp radix2 (FLX_exp p) x)).
  - ring.
  - rewrite Rmult_assoc, <- bpow_plus. do 2 f_equal. lia.
Qed.

(** ** The long double *)

Lemma rn_fits z : (0 <= z < 2 ^ 64)%Z -> rn 64 z = z.
Proof.
  intros Hz. unfold rn. destruct (Z.leb_spec (Z.log2 z + 1 - 64) 0) as [|H]; [reflexivity|exfalso].
  destruct (Z.eq_dec z 0) as [->|Hz0]; [cbn in H; lia|].
  assert (Z.log2 z < 64)%Z by (apply Z.log2_lt_pow2; lia). lia.
Qed.

(** Once there are more than 64 bits a further word is lost. *)
Lemma rn_lost a j w : (2 ^ 63 <= a <= 2 ^ 64)%Z -> (16 <= j)%Z -> (0 <= w < 65536)%Z ->
  rn 64 (a * 2 ^ j * 65536 + w) = (a * 2 ^ (j + 16))%Z.
Proof.
  intros Ha Hj Hw. change 65536%Z with (2 ^ 16)%Z in *.
  rewrite <- Z.mul_assoc, <- Z.pow_add_r by lia.
  assert (H2 : (2 ^ 16 * 2 ^ 16 <= 2 ^ (j + 16))%Z) by (rewrite <- Z.pow_add_r by lia; apply Z.pow_le_mono_r; lia).
  set (J := (j + 16)%Z) in *.
  assert (Hhalf : (2 ^ J = 2 * 2 ^ (J - 1))%Z) by (rewrite <- Z.pow_succ_r by lia; f_equal; lia).
  assert (HC : forall b K, (2 ^ 63 <= b < 2 ^ 64)%Z -> (J <= K)%Z -> (b * 2 ^ K = a * 2 ^ J)%Z ->
    rn 64 (b * 2 ^ K + w) = (a * 2 ^ J)%Z).
  { intros b K Hb HK HE. assert (HK2 : (2 ^ J <= 2 ^ K)%Z) by (apply Z.pow_le_mono_r; lia).
    assert (HKh : (2 ^ K = 2 * 2 ^ (K - 1))%Z) by (rewrite <- Z.pow_succ_r by lia; f_equal; lia).
    assert (Z.log2 (b * 2 ^ K + w) = 63 + K)%Z as HL.
    { apply Z.log2_unique; [lia|]. split.
      - rewrite Z.pow_add_r by lia. apply Z.le_trans with (b * 2 ^ K)%Z; [|lia].
        apply Z.mul_le_mono_nonneg_r; lia.
      - replace (Z.succ (63 + K)) with (64 + K)%Z by lia. rewrite Z.pow_add_r by lia.
        apply Z.lt_le_trans with ((b + 1) * 2 ^ K)%Z; [lia|]. apply Z.mul_le_mono_nonneg_r; lia. }
    unfold rn. rewrite HL. replace (63 + K + 1 - 64)%Z with K by lia.
    destruct (Z.leb_spec K 0); [lia|].
    assert ((b * 2 ^ K + w) / 2 ^ K = b)%Z as ->.
    { symmetry. apply (Z.div_unique _ _ _ w); lia. }
    assert ((b * 2 ^ K + w) mod 2 ^ K = w)%Z as ->.
    { symmetry. apply (Z.mod_unique _ _ b); lia. }
    destruct (Z.ltb_spec w (2 ^ (K - 1))); [|lia]. cbn [orb]. exact HE. }
  destruct (Z.eq_dec a (2 ^ 64)) as [->|Hn].
  - replace (2 ^ 64 * 2 ^ J)%Z with (2 ^ 63 * 2 ^ (J + 1))%Z
      by (rewrite Z.pow_add_r by lia; change (2 ^ 64)%Z with (2 ^ 63 * 2)%Z; ring).
    rewrite HC; [|lia|lia|].
    + rewrite Z.pow_add_r by lia. change (2 ^ 64)%Z with (2 ^ 63 * 2)%Z. ring.
    + rewrite Z.pow_add_r by lia. change (2 ^ 64)%Z with (2 ^ 63 * 2)%Z. ring.
  - apply HC; lia.
Qed.

(** The rounding of a number with 80 bits is a number with 64 of them. *)
Lemma rn_80 z : (2 ^ 79 <= z < 2 ^ 80)%Z ->
  exists a, rn 64 z = (a * 2 ^ 16)%Z /\ (2 ^ 63 <= a <= 2 ^ 64)%Z.
Proof.
  intros Hz. unfold rn. assert (Z.log2 z = 79)%Z as -> by (apply Z.log2_unique; lia).
  change (79 + 1 - 64)%Z with 16%Z. cbn [Z.leb Z.compare].
  assert (2 ^ 63 <= z / 2 ^ 16 < 2 ^ 64)%Z.
  { split; [apply Z.div_le_lower_bound; lia|apply Z.div_lt_upper_bound; lia]. }
  destruct ((z mod 2 ^ 16 <? 2 ^ (16 - 1)) || (z mod 2 ^ 16 =? 2 ^ (16 - 1)) && Z.even (z / 2 ^ 16))%Z;
    eexists; (split; [reflexivity|lia]).
Qed.

Lemma get_ld_ok r : norm r -> get_ld r = (rn 64 (sig r / 2 ^ 80) * 2 ^ 80)%Z.
Proof.
  intros [Hs _]. rewrite top_eq in Hs. change full with (2 ^ 160)%Z in Hs.
  unfold get_ld, SIGSZ, ELEM. set (s := sig r) in *.
  cbn [to_digits rev app fold_left].
  rewrite !Z.div_div by lia.
  change (65536 * 65536)%Z with (2 ^ 32)%Z.
  change (65536 * 2 ^ 32)%Z with (2 ^ 48)%Z. change (65536 * 2 ^ 48)%Z with (2 ^ 64)%Z.
  change (65536 * 2 ^ 64)%Z with (2 ^ 80)%Z. change (65536 * 2 ^ 80)%Z with (2 ^ 96)%Z.
  change (65536 * 2 ^ 96)%Z with (2 ^ 112)%Z. change (65536 * 2 ^ 112)%Z with (2 ^ 128)%Z.
  change (65536 * 2 ^ 128)%Z with (2 ^ 144)%Z.
  assert (HW : forall x, (0 <= x mod 65536 < 65536)%Z) by (intros; apply Z.mod_pos_bound; lia).
  assert (Hstep : forall a b, (b = a * 65536)%Z -> (0 < a)%Z -> (s / b * 65536 + (s / a) mod 65536 = s / a)%Z).
  { intros a b -> Ha. rewrite <- Z.div_div by lia. pose proof (Z.div_mod (s / a) 65536). lia. }
  rewrite Z.mul_0_l, Z.add_0_l.
  assert (Hq : forall j, (96 <= j <= 160)%Z -> (0 <= s / 2 ^ j < 2 ^ 64)%Z).
  { intros j Hj. assert (0 < 2 ^ j)%Z by (apply Z.pow_pos_nonneg; lia). split; [apply Z.div_pos; lia|].
    apply Z.div_lt_upper_bound; [lia|]. rewrite <- Z.pow_add_r by lia.
    apply Z.lt_le_trans with (2 ^ 160)%Z; [lia|]. apply Z.pow_le_mono_r; lia. }
  assert (E9 : ((s / 2 ^ 144) mod 65536 = s / 2 ^ 144)%Z).
  { apply Z.mod_small. split; [apply Z.div_pos; lia|]. apply Z.div_lt_upper_bound; lia. }
  rewrite E9. rewrite (rn_fits (s / 2 ^ 144)) by (apply Hq; lia).
  rewrite (Hstep (2 ^ 128)%Z) by (reflexivity || lia). rewrite (rn_fits (s / 2 ^ 128)) by (apply Hq; lia).
  rewrite (Hstep (2 ^ 112)%Z) by (reflexivity || lia). rewrite (rn_fits (s / 2 ^ 112)) by (apply Hq; lia).
  rewrite (Hstep (2 ^ 96)%Z) by (reflexivity || lia). rewrite (rn_fits (s / 2 ^ 96)) by (apply Hq; lia).
  rewrite (Hstep (2 ^ 80)%Z) by (reflexivity || lia).
  assert (H80 : (2 ^ 79 <= s / 2 ^ 80 < 2 ^ 80)%Z).
  { split; [apply Z.div_le_lower_bound; lia|apply Z.div_lt_upper_bound; lia]. }
  destruct (rn_80 _ H80) as (a & -> & Ha).
  rewrite !rn_lost by (lia || apply HW).
  rewrite <- Z.mul_assoc, <- Z.pow_add_r by lia. reflexivity.
Qed.
