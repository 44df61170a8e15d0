(** Particular literals. *)
From Coq Require Import Reals Lra ZifyBool.
From Flocq Require Import Core.
From Verif Require Import Base Digits Real RealSpec RealProofs RealWords RealApprox RealScan RealRound RealTop.
Open Scope R_scope.

Lemma words_ok r s : length r = SIGSZ -> length s = SIGSZ -> digits_ok ELEM r -> digits_ok ELEM s ->
  (forall delta, (0 <= delta < 160)%Z -> dval ELEM (rshift_sig r delta) = (dval ELEM r / 2 ^ delta)%Z)
  /\ (let (t, c) := add_sig_words r s 0 in
      dval ELEM t + 2 ^ 160 * c = dval ELEM r + dval ELEM s /\ 0 <= c <= 1)%Z
  /\ (dval ELEM (sub_sig_words r s 0) = (dval ELEM r - dval ELEM s) mod 2 ^ 160)%Z
  /\ (Z.sgn (cmp_significands r s) = Z.sgn (dval ELEM r - dval ELEM s))%Z
  /\ (dval ELEM (lshl1 0 r) = (2 * dval ELEM r) mod 2 ^ 160)%Z.
Proof.
  intros Lr Ls Dr Ds.
  assert (HP : (ELEM ^ Z.of_nat (length r) = 2 ^ 160)%Z) by (rewrite Lr; reflexivity).
  split; [|split; [|split; [|split]]].
  - intros d Hd. apply rshift_sig_ok; [exact Dr|]. rewrite Lr. unfold SIGSZ. lia.
  - pose proof (add_sig_words_ok r s ltac:(congruence) Dr Ds 0%Z ltac:(lia)) as H.
    destruct (add_sig_words r s 0) as [t c]. rewrite HP in H. lia.
  - destruct (sub_sig_words_ok r s ltac:(congruence) Dr Ds 0%Z ltac:(lia)) as [H _].
    rewrite HP, Z.add_0_r in H. exact H.
  - unfold cmp_significands.
    pose proof (cmp_words_ok (rev r) (rev s) ltac:(rewrite !rev_length; congruence)
                  ltac:(apply Forall_rev; exact Dr) ltac:(apply Forall_rev; exact Ds)) as H.
    rewrite !rev_involutive in H. exact H.
  - destruct (lshl1_ok r Dr 0%Z ltac:(unfold ELEM; lia)) as [H _].
    rewrite HP in H. rewrite H. f_equal. change (0 / 2 ^ 15)%Z with 0%Z. lia.
Qed.

Lemma sample_words :
  let r := [1; 2; 3; 4; 5; 6; 7; 8; 9; 32768]%Z in
  length r = SIGSZ /\ digits_ok ELEM r
  /\ rshift_sig r 17 = [32769; 1; 32770; 2; 32771; 3; 32772; 4; 16384; 0]%Z
  /\ add_sig_words r r 0 = ([2; 4; 6; 8; 10; 12; 14; 16; 18; 0]%Z, 1%Z).
Proof.
  cbv zeta. split; [reflexivity|]. split; [|split; vm_compute; reflexivity].
  unfold digits_ok, ELEM. repeat constructor; lia.
Qed.

(** [nearest] is the nearest. *)
Lemma not_nearest p q x g : (0 < p)%Z -> generic_format radix2 (FLX_exp p) g ->
  Rabs (g - q) < Rabs (x - q) -> x <> nearest p q.
Proof.
  intros Hp Hg Hlt E. assert (HP : Prec_gt_0 p) by exact Hp.
  pose proof (round_N_pt radix2 (FLX_exp p) (fun n => negb (Z.even n)) q) as [_ HN].
  specialize (HN g Hg). unfold nearest in E. rewrite <- E in HN. lra.
Qed.

Lemma written_fraction base ints fracs :
  written base ints fracs None = IZR (number base (ints ++ fracs)) / IZR base ^ length fracs.
Proof.
  unfold written. cbn [exponent]. destruct (length fracs) as [|n] eqn:E.
  - cbn. field.
  - replace (0 - Z.of_nat (S n))%Z with (Z.neg (Pos.of_succ_nat n)) by lia.
    cbn [powerRZ]. rewrite SuccNat2Pos.id_succ. reflexivity.
Qed.

Definition tie53 : list Z :=
  [0;0;0;0;0;0;0;0;0;0;0;0;0;0;0;1;1;1;0;2;2;3;0;2;4;6;2;5;1;5;6;5;4;0;4;2;3;6;3;1;6;6;8;0;9;0;8;2;0;3;1;2;6]%Z.
Definition tie64 : list Z :=
  [0;0;0;0;0;0;0;0;0;0;0;0;0;0;0;0;0;0;0;5;4;2;1;0;1;0;8;6;2;5;2;7;5;2;2;1;7;0;0;3;7;2;6;4;0;0;4;3;4;9;7;0;8;5;5;7;1;2;8;9;0;6;2;5]%Z.

(** x is 1, g the Float after it, and the number is nearer to g. *)
Lemma tie_lost p fracs : (1 < p)%Z ->
  (2 * number 10 (1 :: fracs) * 2 ^ p > 10 ^ Z.of_nat (length fracs) * (2 * 2 ^ p + 2))%Z ->
  (number 10 (1 :: fracs) * 2 ^ p < 10 ^ Z.of_nat (length fracs) * (2 ^ p + 2))%Z ->
  scaled (2 ^ 159, -159)%Z <> nearest p (written 10 [1]%Z fracs None).
Proof.
  intros Hp H1 H2. rewrite written_fraction. change (app (cons 1%Z nil) fracs) with (cons 1%Z fracs).
  set (N := number 10 (1%Z :: fracs)) in *. rewrite pow_IZR.
  set (D := (10 ^ Z.of_nat (length fracs))%Z) in *.
  assert (HD : (0 < D)%Z) by (apply Z.pow_pos_nonneg; lia). apply IZR_lt in HD.
  assert (H2p : (0 < 2 ^ p)%Z) by (apply Z.pow_pos_nonneg; lia). apply IZR_lt in H2p.
  apply Z.gt_lt in H1. apply IZR_lt in H1, H2. rewrite !mult_IZR, plus_IZR in H1, H2. rewrite mult_IZR in H1.
  assert (Hs : scaled (2 ^ 159, -159)%Z = 1).
  { unfold scaled. cbn [fst snd]. rewrite IZR_pow2, <- bpow_plus by lia. reflexivity. }
  rewrite Hs.
  apply (not_nearest p _ 1 (1 + 2 * bpow radix2 (- p)) ltac:(lia)).
  - apply generic_format_FLX.
    exists (Float radix2 (2 ^ (p - 1) + 1) (1 - p)).
    + unfold F2R. cbn [Fnum Fexp]. rewrite plus_IZR, IZR_pow2 by lia.
      rewrite Rmult_plus_distr_r, <- bpow_plus. replace (p - 1 + (1 - p))%Z with 0%Z by lia.
      rewrite Rmult_1_l. replace (1 - p)%Z with (1 + - p)%Z by lia. rewrite bpow_plus. reflexivity.
    + cbn [Fnum]. change (radix_val radix2) with 2%Z.
      assert (2 ^ p = 2 * 2 ^ (p - 1))%Z by (rewrite <- Z.pow_succ_r by lia; f_equal; lia).
      assert (2 ^ 1 <= 2 ^ (p - 1))%Z by (apply Z.pow_le_mono_r; lia).
      rewrite Z.abs_eq by lia. lia.
  - rewrite bpow_opp, <- IZR_pow2 by lia.
    set (q := IZR N / IZR D). set (E := / IZR (2 ^ p)).
    assert (HE : 0 < E) by (apply Rinv_0_lt_compat; lra).
    assert (Hq1 : 1 + E < q).
    { apply Rmult_lt_reg_r with (2 * (IZR D * IZR (2 ^ p))); [apply Rmult_lt_0_compat; [lra|apply Rmult_lt_0_compat; lra]|].
      unfold q, E. replace (IZR N / IZR D * (2 * (IZR D * IZR (2 ^ p)))) with (2 * IZR N * IZR (2 ^ p)) by (field; lra).
      replace ((1 + / IZR (2 ^ p)) * (2 * (IZR D * IZR (2 ^ p)))) with (IZR D * (2 * IZR (2 ^ p) + 2)) by (field; lra).
      rewrite mult_IZR in H1. exact H1. }
    assert (Hq2 : q < 1 + 2 * E).
    { apply Rmult_lt_reg_r with (IZR D * IZR (2 ^ p)); [apply Rmult_lt_0_compat; lra|].
      unfold q, E. replace (IZR N / IZR D * (IZR D * IZR (2 ^ p))) with (IZR N * IZR (2 ^ p)) by (field; lra).
      replace ((1 + 2 * / IZR (2 ^ p)) * (IZR D * IZR (2 ^ p))) with (IZR D * (IZR (2 ^ p) + 2)) by (field; lra).
      exact H2. }
    rewrite Rabs_pos_eq, Rabs_left1 by lra. lra.
Qed.

Lemma digits_small l : forallb (fun d => (0 <=? d) && (d <? 10))%Z l = true -> Forall (fun d => 0 <= d < 10)%Z l.
Proof. intros H. rewrite forallb_forall in H. apply Forall_forall. intros x Hx. specialize (H x Hx). lia. Qed.

Lemma double_rounding :
  exists fracs x, literal_ok 10 [1]%Z fracs /\ bounded [1]%Z fracs None
    /\ float_literal FloatD 10 [1]%Z fracs None = Ok x
    /\ scaled x <> nearest 53 (written 10 [1]%Z fracs None).
Proof.
  exists tie53, (2 ^ 159, -159)%Z.
  split; [split; [lia|apply digits_small; reflexivity]|].
  split; [split; [vm_compute; discriminate|cbn; lia]|].
  split; [vm_compute; reflexivity|].
  apply tie_lost; [lia|vm_compute; reflexivity|vm_compute; reflexivity].
Qed.

Lemma long_double :
  exists fracs x, literal_ok 10 [1]%Z fracs /\ bounded [1]%Z fracs None
    /\ float_literal FloatQ 10 [1]%Z fracs None = Ok x
    /\ scaled x <> nearest 64 (written 10 [1]%Z fracs None).
Proof.
  exists tie64, (2 ^ 159, -159)%Z.
  split; [split; [lia|apply digits_small; reflexivity]|].
  split; [split; [vm_compute; discriminate|cbn; lia]|].
  split; [vm_compute; reflexivity|].
  apply tie_lost; [lia|vm_compute; reflexivity|vm_compute; reflexivity].
Qed.

Lemma truncated_exponent :
  exists ds x, exponent_ok (Some (false, ds)) /\ exponent (Some (false, ds)) = 4294967297%Z
    /\ float_literal FloatE 10 [1]%Z [] (Some (false, ds)) = Ok x /\ scaled x = 10
    /\ 10 ^ 100 < written 10 [1]%Z [] (Some (false, ds)).
Proof.
  exists [4; 2; 9; 4; 9; 6; 7; 2; 9; 7]%Z, (5 * 2 ^ 157, -156)%Z.
  split; [apply digits_small; reflexivity|]. split; [reflexivity|].
  split; [vm_compute; reflexivity|]. split.
  - unfold scaled. cbn [fst snd]. rewrite mult_IZR, IZR_pow2, Rmult_assoc, <- bpow_plus by lia.
    change (157 + -156)%Z with 1%Z. change (bpow radix2 1) with 2. lra.
  - unfold written. change (exponent (Some (false, [4; 2; 9; 4; 9; 6; 7; 2; 9; 7]%Z))) with 4294967297%Z.
    cbn [app length]. change (number 10 [1]%Z) with 1%Z. rewrite Rmult_1_l.
    change (4294967297 - Z.of_nat 0)%Z with (Z.pos 4294967297). cbn [powerRZ].
    apply Rlt_pow; [lra|]. lia.
Qed.

Lemma overflowing_exponent :
  exists ds, literal_ok 16 [1]%Z [] /\ exponent_ok (Some (false, ds))
    /\ exponent (Some (false, ds)) = 536870912%Z
    /\ float_literal FloatD 16 [1]%Z [] (Some (false, ds)) = UB.
Proof.
  exists [5; 3; 6; 8; 7; 0; 9; 1; 2]%Z.
  split; [split; [lia|repeat constructor; lia]|].
  split; [apply digits_small; reflexivity|]. split; vm_compute; reflexivity.
Qed.

(** No midpoint is near a Float. *)
Lemma far_from_midpoints y : midpoint 53 y -> 5 / 4 * margin FloatD < Rabs (5 / 4 - y).
Proof.
  intros (f & Ff & ->). cbn [margin].
  assert (HP : Prec_gt_0 53) by reflexivity.
  assert (F54 : generic_format radix2 (FLX_exp 53) (5 / 4)).
  { apply generic_format_FLX. exists (Float radix2 5 (-2)); [unfold F2R; cbn; lra|cbn; lia]. }
  assert (H63 : bpow radix2 (-63) <= / 1000 * bpow radix2 (-53)).
  { change (-63)%Z with (-10 + -53)%Z. rewrite bpow_plus. apply Rmult_le_compat_r; [apply bpow_ge_0|cbn; lra]. }
  assert (H53 : bpow radix2 (-53) <= / 1000) by (apply Rle_trans with (bpow radix2 (-10)); [apply bpow_le; lia|cbn; lra]).
  pose proof (bpow_gt_0 radix2 (-53)) as Hb. set (b := bpow radix2 (-53)) in *.
  destruct (Rle_or_lt f 0) as [Hf|Hf].
  - assert (succ radix2 (FLX_exp 53) f <= 5 / 4 / 4).
    { destruct (Req_dec f 0) as [->|H0].
      - unfold succ. rewrite Rle_bool_true by lra.
        assert (ulp radix2 (FLX_exp 53) 0 = 0) as ->; [|lra].
        unfold ulp. rewrite Req_bool_true by reflexivity. rewrite negligible_exp_FLX by exact HP. reflexivity.
      - apply Rle_trans with 0; [|lra]. apply succ_le_lt; auto with typeclass_instances; [apply generic_format_0|lra]. }
    rewrite Rabs_pos_eq by lra. lra.
  - rewrite succ_eq_pos by lra.
    pose proof (ulp_FLX_ge radix2 53 f) as Hu. pose proof (ulp_FLX_le radix2 53 f) as Hu2.
    rewrite Rabs_pos_eq in Hu, Hu2 by lra. change (- (53))%Z with (-53)%Z in Hu. fold b in Hu.
    change (1 - 53)%Z with (1 + -53)%Z in Hu2. rewrite bpow_plus in Hu2. change (bpow radix2 1) with 2 in Hu2. fold b in Hu2.
    destruct (Rle_or_lt (5 / 4) f) as [Hle|Hgt].
    + assert (5 / 4 * b <= f * b) by (apply Rmult_le_compat_r; lra).
      rewrite Rabs_left1 by lra. lra.
    + assert (Hs : succ radix2 (FLX_exp 53) f <= 5 / 4) by (apply succ_le_lt; auto with typeclass_instances).
      rewrite succ_eq_pos in Hs by lra.
      destruct (Rle_or_lt f (9 / 10)) as [H9|H9].
      * assert (f * (2 * b) <= 9 / 10 * (2 * b)) by (apply Rmult_le_compat_r; lra).
        rewrite Rabs_pos_eq by lra. lra.
      * assert (9 / 10 * b <= f * b) by (apply Rmult_le_compat_r; lra).
        rewrite Rabs_pos_eq by lra. lra.
Qed.

Lemma sample_literal :
  literal_ok 10 [1; 2]%Z [5]%Z /\ exponent_ok (Some (true, [1]%Z)) /\ bounded [1; 2]%Z [5]%Z (Some (true, [1]%Z))
  /\ written 10 [1; 2]%Z [5]%Z (Some (true, [1]%Z)) = 5 / 4
  /\ generic_format radix2 (FLX_exp 53) (5 / 4)
  /\ (forall y, midpoint 53 y -> 5 / 4 * margin FloatD < Rabs (5 / 4 - y))
  /\ float_literal FloatD 10 [1; 2]%Z [5]%Z (Some (true, [1]%Z)) = Ok (5 * 2 ^ 157, -159)%Z.
Proof.
  split; [split; [lia|apply digits_small; reflexivity]|].
  split; [apply digits_small; reflexivity|].
  split; [split; [vm_compute; discriminate|cbn; lia]|].
  split.
  { unfold written. change (number 10 ([1; 2]%Z ++ [5]%Z)) with 125%Z.
    change (exponent (Some (true, [1]%Z)) - Z.of_nat (length [5%Z]))%Z with (-2)%Z. unfold powerRZ. change (Pos.to_nat 2) with 2%nat. cbn [pow]. lra. }
  split.
  { assert (HP : Prec_gt_0 53) by reflexivity.
    apply generic_format_FLX. exists (Float radix2 5 (-2)); [unfold F2R; cbn; lra|cbn; lia]. }
  split; [exact far_from_midpoints|]. vm_compute. reflexivity.
Qed.
