(** The operations on struct real against those on the real numbers. *)
From Coq Require Import Reals Lra ZifyBool.
From Flocq Require Import Core.
From Verif Require Import Base Digits Real RealSpec RealProofs.
Open Scope R_scope.

Definition V (r : real) : R := IZR (sig r) * bpow radix2 (exp r - 159).

Definition eps : R := bpow radix2 (-150).

(** [v] is [q] rounded down [n] times. *)
Definition near (n v q : R) : Prop := q * (1 - n * eps) <= v <= q.

Lemma eps_pos : 0 < eps.
Proof. apply bpow_gt_0. Qed.

Lemma eps_small : 161 * bpow radix2 (-159) <= eps.
Proof.
  unfold eps. replace (-150)%Z with (9 + -159)%Z by lia. rewrite bpow_plus.
  apply Rmult_le_compat_r; [apply bpow_ge_0|]. cbn. lra.
Qed.

Global Opaque eps.

Lemma IZR_pow2 c : (0 <= c)%Z -> IZR (2 ^ c) = bpow radix2 c.
Proof. intros. apply (IZR_Zpower radix2). auto. Qed.

Lemma IZR_top : IZR top = bpow radix2 159.
Proof. rewrite top_eq. apply IZR_pow2. lia. Qed.

Lemma IZR_full : IZR full = bpow radix2 160.
Proof. change full with (2 ^ 160)%Z. apply IZR_pow2. lia. Qed.

Lemma V_bounds r : norm r -> bpow radix2 (exp r) <= V r < bpow radix2 (exp r + 1).
Proof.
  intros [[H1 H2] _]. apply IZR_le in H1. apply IZR_lt in H2. rewrite IZR_top in H1. rewrite IZR_full in H2.
  unfold V. pose proof (bpow_gt_0 radix2 (exp r - 159)) as Hp. split.
  - replace (exp r) with (159 + (exp r - 159))%Z at 1 by lia. rewrite bpow_plus.
    apply Rmult_le_compat_r; lra.
  - replace (exp r + 1)%Z with (160 + (exp r - 159))%Z by lia. rewrite bpow_plus.
    apply Rmult_lt_compat_r; lra.
Qed.

Lemma V_pos r : norm r -> 0 < V r.
Proof. intros H. pose proof (V_bounds r H). pose proof (bpow_gt_0 radix2 (exp r)). lra. Qed.

Lemma exp_below r M : norm r -> V r <= bpow radix2 M -> (exp r <= M)%Z.
Proof. intros H HM. pose proof (V_bounds r H) as [H1 _]. apply (le_bpow radix2). lra. Qed.

Lemma exp_above r m : norm r -> bpow radix2 m <= V r -> (m <= exp r)%Z.
Proof.
  intros H HM. pose proof (V_bounds r H) as [_ H1].
  assert (m < exp r + 1)%Z; [|lia]. apply (lt_bpow radix2). lra.
Qed.

Lemma in_int_iff z : in_int z = true <-> (- 2 ^ 31 <= z < 2 ^ 31)%Z.
Proof. unfold in_int. lia. Qed.

(** ** Multiplication *)

Lemma mul_V r s : norm r -> norm s ->
  in_int (exp r + exp s) = true -> in_int (exp r + exp s + 1) = true ->
  exists t, do_mul r s = Ok t /\ norm t /\ V r * V s * (1 - eps) <= V t <= V r * V s.
Proof.
  intros Hr Hs H1 H2. destruct (do_mul_ok r s Hr Hs H1 H2) as (a & c & HE & Hc & Ha & Hlo & Hhi).
  eexists. split; [exact HE|]. split; [split; [exact Ha|reflexivity]|].
  unfold V. cbn [sig exp].
  set (e := (exp r + exp s - 318)%Z).
  replace (exp r + exp s + c - 159)%Z with (c + 159 + e)%Z by (unfold e; lia).
  assert (HRS : IZR (sig r) * bpow radix2 (exp r - 159) * (IZR (sig s) * bpow radix2 (exp s - 159))
                = IZR (sig r * sig s) * bpow radix2 e).
  { replace e with ((exp r - 159) + (exp s - 159))%Z by (unfold e; lia).
    rewrite bpow_plus, mult_IZR. ring. }
  rewrite HRS. rewrite !bpow_plus.
  apply IZR_le in Hlo, Hhi.
  rewrite !mult_IZR, (IZR_pow2 c), IZR_top in Hlo, Hhi by lia. rewrite plus_IZR in Hhi.
  destruct Ha as [Ha1 Ha2]. apply IZR_le in Ha1. rewrite IZR_top in Ha1.
  pose proof (bpow_gt_0 radix2 e) as He. pose proof (bpow_gt_0 radix2 c) as Hcp.
  pose proof (bpow_gt_0 radix2 159) as Htp. pose proof eps_pos as Hep. pose proof eps_small as Hes.
  rewrite mult_IZR.
  set (P := IZR (sig r) * IZR (sig s)) in *. set (A := IZR a) in *.
  set (C := bpow radix2 c) in *. set (T := bpow radix2 159) in *. set (E := bpow radix2 e) in *.
  assert (HT1 : bpow radix2 (-159) * T = 1).
  { unfold T. rewrite <- bpow_plus. reflexivity. }
  assert (HCT : 0 < C * T) by (apply Rmult_lt_0_compat; lra).
  split.
  - replace (A * (C * T * E)) with ((A * C * T) * E) by ring.
    replace (P * E * (1 - eps)) with ((P * (1 - eps)) * E) by ring.
    apply Rmult_le_compat_r; [lra|].
    assert (161 <= A * eps).
    { apply Rle_trans with (T * (161 * bpow radix2 (-159))).
      - replace (T * (161 * bpow radix2 (-159))) with (161 * (bpow radix2 (-159) * T)) by ring. lra.
      - apply Rmult_le_compat; try lra. pose proof (bpow_ge_0 radix2 (-159)). lra. }
    assert (P <= A * C * T + A * eps * (C * T)).
    { eapply Rle_trans; [exact Hhi|].
      replace ((A + 161) * C * T) with (A * C * T + 161 * (C * T)) by ring.
      apply Rplus_le_compat_l, Rmult_le_compat_r; lra. }
    assert (A * C * T * eps <= P * eps) by (apply Rmult_le_compat_r; lra).
    lra.
  - replace (A * (C * T * E)) with ((A * C * T) * E) by ring.
    apply Rmult_le_compat_r; lra.
Qed.

(** ** Addition *)

Lemma add_V r s : norm r -> norm s ->
  in_int (Z.abs (exp r - exp s)) = true -> in_int (Z.max (exp r) (exp s) + 1) = true ->
  exists t, do_add r s = Ok t /\ norm t /\ (V r + V s) * (1 - eps) <= V t <= V r + V s.
Proof.
  intros Hr Hs H1 H2. destruct (do_add_ok r s Hr Hs H1 H2) as (a & c & HE & Hc & Ha & Hlo & Hhi).
  eexists. split; [exact HE|]. split; [split; [exact Ha|reflexivity]|].
  set (d := (Z.max (exp r) (exp s) - Z.min (exp r) (exp s))%Z) in *.
  set (m := (Z.min (exp r) (exp s) - 159)%Z).
  set (X := ((if (exp r <? exp s)%Z then sig s else sig r) * 2 ^ d
             + (if (exp r <? exp s)%Z then sig r else sig s))%Z) in *.
  assert (Hd : (0 <= d)%Z) by lia.
  assert (HX : V r + V s = IZR X * bpow radix2 m).
  { unfold V, X. destruct (Z.ltb_spec (exp r) (exp s)); rewrite plus_IZR, mult_IZR, IZR_pow2 by lia.
    - replace (exp s - 159)%Z with (d + m)%Z by lia. replace (exp r - 159)%Z with m by lia.
      rewrite bpow_plus. ring.
    - replace (exp r - 159)%Z with (d + m)%Z by lia. replace (exp s - 159)%Z with m by lia.
      rewrite bpow_plus. ring. }
  rewrite HX. unfold V. cbn [sig exp].
  replace (Z.max (exp r) (exp s) + c - 159)%Z with (c + d + m)%Z by lia.
  rewrite !bpow_plus.
  apply IZR_le in Hlo. apply IZR_lt in Hhi.
  rewrite !mult_IZR, (IZR_pow2 c), (IZR_pow2 d) in Hlo, Hhi by lia. rewrite plus_IZR in Hhi.
  destruct Ha as [Ha1 Ha2]. apply IZR_le in Ha1. rewrite IZR_top in Ha1.
  pose proof (bpow_gt_0 radix2 m) as He. pose proof (bpow_gt_0 radix2 c) as Hcp.
  pose proof (bpow_gt_0 radix2 d) as Hdp.
  pose proof (bpow_gt_0 radix2 159) as Htp. pose proof eps_pos as Hep. pose proof eps_small as Hes.
  set (P := IZR X) in *. set (A := IZR a) in *.
  set (C := bpow radix2 c) in *. set (T := bpow radix2 159) in *. set (E := bpow radix2 m) in *.
  set (D := bpow radix2 d) in *.
  assert (HT1 : bpow radix2 (-159) * T = 1).
  { unfold T. rewrite <- bpow_plus. reflexivity. }
  assert (HCT : 0 < C * D) by (apply Rmult_lt_0_compat; lra).
  split.
  - replace (A * (C * D * E)) with ((A * C * D) * E) by ring.
    replace (P * E * (1 - eps)) with ((P * (1 - eps)) * E) by ring.
    apply Rmult_le_compat_r; [lra|].
    assert (161 <= A * eps).
    { apply Rle_trans with (T * (161 * bpow radix2 (-159))).
      - replace (T * (161 * bpow radix2 (-159))) with (161 * (bpow radix2 (-159) * T)) by ring. lra.
      - apply Rmult_le_compat; try lra. pose proof (bpow_ge_0 radix2 (-159)). lra. }
    assert (P <= A * C * D + A * eps * (C * D)).
    { apply Rlt_le. eapply Rlt_le_trans; [exact Hhi|].
      replace ((A + 1) * C * D) with (A * C * D + 1 * (C * D)) by ring.
      apply Rplus_le_compat_l, Rmult_le_compat_r; lra. }
    assert (A * C * D * eps <= P * eps) by (apply Rmult_le_compat_r; lra).
    lra.
  - replace (A * (C * D * E)) with ((A * C * D) * E) by ring.
    apply Rmult_le_compat_r; lra.
Qed.

(** ** Division *)

Lemma div_V r s : norm r -> norm s ->
  in_int (exp r - exp s) = true -> in_int (exp r - exp s - 1) = true ->
  exists t, div r s = Ok t /\ norm t /\ V r / V s * (1 - eps) <= V t <= V r / V s.
Proof.
  intros Hr Hs H1 H2. destruct (div_ok r s Hr Hs H1 H2) as (v & c & HE & Hc & Ha & Hv & Hlo & Hhi).
  eexists. split; [exact HE|]. split; [split; [exact Ha|reflexivity]|].
  set (e := (exp r - exp s - 159)%Z).
  assert (HV : V (Real (v * 2 ^ c) (exp r - exp s - c) 1) = IZR v * bpow radix2 e).
  { unfold V. cbn [sig exp]. rewrite mult_IZR, IZR_pow2 by lia.
    replace e with (c + (exp r - exp s - c - 159))%Z by (unfold e; lia). rewrite (bpow_plus _ c). ring. }
  rewrite HV.
  pose proof (V_pos _ Hs) as Hsp.
  assert (HR : V r = IZR (sig r) * bpow radix2 159 * bpow radix2 e * bpow radix2 (exp s - 159)).
  { unfold V. rewrite !Rmult_assoc, <- !bpow_plus. do 2 f_equal. unfold e. lia. }
  assert (HS : V s = IZR (sig s) * bpow radix2 (exp s - 159)) by reflexivity.
  destruct Hs as [[Hs1 _] _]. apply IZR_le in Hs1. rewrite IZR_top in Hs1.
  apply IZR_le in Hlo. apply IZR_lt in Hhi. apply IZR_le in Hv.
  rewrite !mult_IZR, ?plus_IZR, IZR_top in *.
  pose proof (bpow_gt_0 radix2 e) as He.
  pose proof (bpow_gt_0 radix2 (exp s - 159)) as Hxp.
  pose proof (bpow_gt_0 radix2 159) as Htp. pose proof eps_pos as Hep. pose proof eps_small as Hes.
  assert (HQ : V r / V s = IZR (sig r) * bpow radix2 159 / IZR (sig s) * bpow radix2 e).
  { rewrite HR, HS. field. split; apply Rgt_not_eq; lra. }
  rewrite HQ.
  assert (HT1 : bpow radix2 (-159) * bpow radix2 159 = 1).
  { rewrite <- bpow_plus. reflexivity. }
  set (T := bpow radix2 159) in *. set (S := IZR (sig s)) in *. set (N := IZR (sig r) * T) in *.
  set (A := IZR v) in *. set (E := bpow radix2 e) in *.
  assert (HS0 : 0 < S) by lra.
  assert (Hle1 : A <= N / S).
  { apply Rmult_le_reg_r with S; [lra|]. unfold Rdiv. rewrite Rmult_assoc, Rinv_l by lra. lra. }
  assert (Hle2 : N / S <= A + 1).
  { apply Rmult_le_reg_r with S; [lra|]. unfold Rdiv. rewrite Rmult_assoc, Rinv_l by lra. lra. }
  set (X := N / S) in *.
  split; [|apply Rmult_le_compat_r; lra].
  replace (X * E * (1 - eps)) with ((X * (1 - eps)) * E) by ring.
  apply Rmult_le_compat_r; [lra|].
  assert (1 <= A * eps).
  { apply Rle_trans with (T / 2 * (161 * bpow radix2 (-159))).
    - replace (T / 2 * (161 * bpow radix2 (-159))) with (161 / 2 * (bpow radix2 (-159) * T)) by field. lra.
    - apply Rmult_le_compat; try lra. pose proof (bpow_ge_0 radix2 (-159)). lra. }
  assert (A * eps <= X * eps) by (apply Rmult_le_compat_r; lra).
  lra.
Qed.
