(** The Float of a literal and the number written. *)
From Coq Require Import Reals Lra ZifyBool.
From Flocq Require Import Core Relative.
From Verif Require Import Base Digits Real RealSpec RealProofs RealApprox RealScan RealRound.
Open Scope R_scope.

(** ** Roundings of numbers that are close *)

Section Bits.
  Variable p : Z.
  Hypothesis Hp : (0 < p)%Z.
  Local Instance prec : Prec_gt_0 p := Hp.

  Notation F := (generic_format radix2 (FLX_exp p)).
  Notation rd := (round radix2 (FLX_exp p) ZnearestE).
  Notation succ := (succ radix2 (FLX_exp p)).
  Notation pred := (pred radix2 (FLX_exp p)).

  Lemma rd_F x : F (rd x).
  Proof. apply generic_format_round; auto with typeclass_instances. Qed.

  Lemma below_mid x : rd x = x \/ x <= (rd x + succ (rd x)) / 2.
  Proof.
    right. destruct (Rle_or_lt x ((rd x + succ (rd x)) / 2)) as [|Hg]; [assumption|exfalso].
    destruct (Req_dec (rd x) 0) as [H0|H0].
    { assert (x = 0) as E.
      { destruct (Req_dec x 0) as [|Hx]; [assumption|exfalso].
        apply (round_neq_0_negligible_exp radix2 (FLX_exp p) (negligible_exp_FLX p) ZnearestE x Hx H0). }
      rewrite E in *. rewrite round_0 in * by auto with typeclass_instances.
      unfold Ulp.succ in Hg. rewrite Rle_bool_true in Hg by lra. pose proof (ulp_ge_0 radix2 (FLX_exp p) 0). lra. }
    assert (Hs : rd x < succ (rd x)) by (apply succ_gt_id; exact H0).
    pose proof (round_N_ge_midp radix2 (FLX_exp p) (fun n => negb (Z.even n)) (succ (rd x)) x) as Hm.
    specialize (Hm (generic_format_succ _ _ _ (rd_F x))).
    rewrite (pred_succ radix2 (FLX_exp p) (rd x) (rd_F x)) in Hm.
    specialize (Hm ltac:(lra)). lra.
  Qed.

  Lemma above_mid x : (rd x + pred (rd x)) / 2 <= x.
  Proof.
    destruct (Rle_or_lt ((rd x + pred (rd x)) / 2) x) as [|Hg]; [assumption|exfalso].
    destruct (Req_dec (rd x) 0) as [H0|H0].
    { assert (x = 0) as E.
      { destruct (Req_dec x 0) as [|Hx]; [assumption|exfalso].
        apply (round_neq_0_negligible_exp radix2 (FLX_exp p) (negligible_exp_FLX p) ZnearestE x Hx H0). }
      rewrite E in *. rewrite round_0 in * by auto with typeclass_instances.
      pose proof (pred_le_id radix2 (FLX_exp p) 0). lra. }
    assert (Hs : pred (rd x) < rd x) by (apply pred_lt_id; exact H0).
    pose proof (round_N_le_midp radix2 (FLX_exp p) (fun n => negb (Z.even n)) (pred (rd x)) x) as Hm.
    specialize (Hm (generic_format_pred _ _ _ (rd_F x))).
    rewrite (succ_pred radix2 (FLX_exp p) (rd x) (rd_F x)) in Hm.
    specialize (Hm ltac:(lra)). lra.
  Qed.

  Lemma round_stable t q d : Rabs (t - q) <= d ->
    (forall y, midpoint p y -> d < Rabs (q - y)) -> rd t = rd q.
  Proof.
    intros Hd Hm. apply Rabs_le_inv in Hd.
    assert (Hup : q < (rd t + succ (rd t)) / 2).
    { destruct (Rlt_or_le q ((rd t + succ (rd t)) / 2)) as [|Hg]; [assumption|exfalso].
      specialize (Hm ((rd t + succ (rd t)) / 2) ltac:(exists (rd t); split; [apply rd_F|reflexivity])).
      rewrite Rabs_pos_eq in Hm by lra.
      destruct (below_mid t) as [E|E]; [|lra].
      pose proof (succ_ge_id radix2 (FLX_exp p) (rd t)). lra. }
    assert (Hlo : (rd t + pred (rd t)) / 2 < q).
    { destruct (Rlt_or_le ((rd t + pred (rd t)) / 2) q) as [|Hg]; [assumption|exfalso].
      specialize (Hm ((rd t + pred (rd t)) / 2)).
      assert (midpoint p ((rd t + pred (rd t)) / 2)) as M.
      { exists (pred (rd t)). split; [apply generic_format_pred; auto with typeclass_instances; apply rd_F|].
        rewrite (succ_pred radix2 (FLX_exp p) (rd t) (rd_F t)). lra. }
      specialize (Hm M). rewrite Rabs_left1 in Hm by lra.
      pose proof (above_mid t). lra. }
    apply Rle_antisym.
    - apply round_N_ge_midp; auto with typeclass_instances; try apply rd_F; lra.
    - apply round_N_le_midp; auto with typeclass_instances; try apply rd_F; lra.
  Qed.

  Lemma round_exact t q : F q -> 0 < q -> Rabs (t - q) <= q * bpow radix2 (- (p + 3)) -> rd t = q.
  Proof.
    intros Fq Hq Hd. apply Rabs_le_inv in Hd.
    assert (Hpp : bpow radix2 (- p) = 8 * bpow radix2 (- (p + 3))).
    { replace (- p)%Z with (3 + - (p + 3))%Z by lia. rewrite bpow_plus. reflexivity. }
    pose proof (bpow_gt_0 radix2 (- (p + 3))) as Hb.
    assert (Hb1 : bpow radix2 (- p) <= 1).
    { change 1 with (bpow radix2 0). apply bpow_le. lia. }
    set (b := bpow radix2 (- (p + 3))) in *.
    assert (Hqb : 0 < q * b) by (apply Rmult_lt_0_compat; lra).
    apply Rle_antisym.
    - apply round_N_le_midp; auto with typeclass_instances.
      rewrite succ_eq_pos by lra.
      pose proof (ulp_FLX_ge radix2 p q) as Hu. rewrite Rabs_pos_eq in Hu by lra. rewrite Hpp in Hu. lra.
    - apply round_N_ge_midp; auto with typeclass_instances.
      pose proof (pred_plus_ulp radix2 (FLX_exp p) q Hq Fq) as Hpu.
      pose proof (ulp_FLX_ge radix2 p (pred q)) as Hu. rewrite Hpp in Hu.
      pose proof (pred_ge_0 radix2 (FLX_exp p) q Hq Fq) as Hp0.
      rewrite Rabs_pos_eq in Hu by lra.
      assert (pred q <= q) by (pose proof (ulp_ge_0 radix2 (FLX_exp p) (pred q)); lra).
      set (u := pred q) in *.
      (* u (1 + 8 b) <= q, therefore (q - u) / 2 > q b *)
      assert (u * (1 + 8 * b) <= q) by lra.
      destruct (Rle_or_lt (q * (1 - 2 * b)) u) as [Hle|Hlt]; [exfalso|lra].
      assert (q * (1 - 2 * b) * (1 + 8 * b) <= u * (1 + 8 * b)) by (apply Rmult_le_compat_r; lra).
      assert (q * (1 - 2 * b) * (1 + 8 * b) = q + q * b * (6 - 16 * b)) by ring.
      assert (0 < q * b * (6 - 16 * b)) by (apply Rmult_lt_0_compat; lra).
      lra.
  Qed.
End Bits.

(** ** The number whose rounding the long double is *)

Definition T (r : real) : R := IZR (sig r / 2 ^ 80) * bpow radix2 (exp r - 79).

Lemma T_V r : norm r -> V r - V r * bpow radix2 (-79) <= T r <= V r.
Proof.
  intros Hn. pose proof (V_bounds r Hn) as [HV _]. unfold T, V in *.
  pose proof (div_lower (sig r) (2 ^ 80) ltac:(lia)) as H1.
  pose proof (div_upper (sig r) (2 ^ 80) ltac:(lia)) as H2.
  set (q := (sig r / 2 ^ 80)%Z) in *.
  apply IZR_le in H1. apply IZR_lt in H2. rewrite mult_IZR in H1, H2. rewrite plus_IZR in H2.
  rewrite IZR_pow2 in H1, H2 by lia.
  replace (exp r - 79)%Z with (80 + (exp r - 159))%Z by lia. rewrite bpow_plus.
  pose proof (bpow_gt_0 radix2 (exp r - 159)) as Hb. pose proof (bpow_gt_0 radix2 80) as H80.
  split.
  - assert (bpow radix2 80 * bpow radix2 (exp r - 159) <= IZR (sig r) * bpow radix2 (exp r - 159) * bpow radix2 (-79)).
    { apply Rle_trans with (bpow radix2 (exp r) * bpow radix2 (-79)).
      - rewrite <- !bpow_plus. apply bpow_le. lia.
      - apply Rmult_le_compat_r; [apply bpow_ge_0|exact HV]. }
    assert (IZR (sig r) * bpow radix2 (exp r - 159) <= (IZR q + 1) * bpow radix2 80 * bpow radix2 (exp r - 159))
      by (apply Rmult_le_compat_r; lra).
    lra.
  - rewrite <- Rmult_assoc. apply Rmult_le_compat_r; lra.
Qed.

Lemma T_close r q : norm r -> 0 < q -> Rabs (V r - q) <= q * bpow radix2 (-130) ->
  0 < T r /\ Rabs (T r - q) <= q * bpow radix2 (-78).
Proof.
  intros Hn Hq Hc. apply Rabs_le_inv in Hc. pose proof (T_V r Hn) as HT.
  assert (H78 : bpow radix2 (-78) = 2 * bpow radix2 (-79)) by (change (-78)%Z with (1 + -79)%Z; rewrite bpow_plus; reflexivity).
  assert (H79 : bpow radix2 (-79) <= / 8) by (apply Rle_trans with (bpow radix2 (-3)); [apply bpow_le; lia|cbn; lra]).
  assert (H130 : 4 * bpow radix2 (-130) <= bpow radix2 (-79)).
  { change 4 with (bpow radix2 2). rewrite <- bpow_plus. apply bpow_le. lia. }
  pose proof (bpow_gt_0 radix2 (-79)) as Hb. pose proof (bpow_gt_0 radix2 (-130)) as Hb2.
  set (a := bpow radix2 (-79)) in *. set (b := bpow radix2 (-130)) in *.
  assert (Hqa : 0 < q * a) by (apply Rmult_lt_0_compat; lra).
  assert (Hqb : 4 * (q * b) <= q * a) by (replace (4 * (q * b)) with (q * (4 * b)) by ring; apply Rmult_le_compat_l; lra).
  assert (HVq : V r <= q + q * b) by lra.
  assert (HVa : V r * a <= (q + q * b) * a) by (apply Rmult_le_compat_r; lra).
  assert (HVa2 : (q + q * b) * a <= q * a + q * b * / 8).
  { rewrite Rmult_plus_distr_r. apply Rplus_le_compat_l. apply Rmult_le_compat_l; [|exact H79].
    apply Rmult_le_pos; lra. }
  assert (Hqa8 : q * a <= q * / 8) by (apply Rmult_le_compat_l; lra).
  rewrite H78. split; [|apply Rabs_le; split]; lra.
Qed.

Lemma bits_pos k : (0 < bits k)%Z.
Proof. destruct k; cbn; lia. Qed.

(** The Float is rounded twice. *)
Lemma literal_rounds k r : norm r ->
  scaled (rn (bits k) (get_ld r), (exp r - 159)%Z)
  = round radix2 (FLX_exp (bits k)) ZnearestE (round radix2 (FLX_exp 64) ZnearestE (T r)).
Proof.
  intros Hn. pose proof Hn as [[Hs _] _]. rewrite top_eq in Hs.
  assert (Hz : (2 ^ 79 <= sig r / 2 ^ 80)%Z) by (apply Z.div_le_lower_bound; lia).
  assert (HzR : 0 < IZR (sig r / 2 ^ 80)) by (apply IZR_lt; lia).
  rewrite (get_ld_ok r Hn).
  set (m := rn 64 (sig r / 2 ^ 80)).
  assert (Hm : IZR m = round radix2 (FLX_exp 64) ZnearestE (IZR (sig r / 2 ^ 80))) by (apply rn_round; lia).
  assert (HmR : 0 < IZR m).
  { rewrite Hm. apply Rlt_le_trans with (IZR (2 ^ 79)); [apply IZR_lt; lia|].
    assert (Hv : Valid_exp (FLX_exp 64)) by (apply (@FLX_exp_valid 64); reflexivity).
    apply round_ge_generic; auto with typeclass_instances.
    - apply generic_format_FLX. exists (Float radix2 1 79); [unfold F2R; cbn [Fnum Fexp]; rewrite IZR_pow2 by lia; ring|cbn; lia].
    - apply IZR_le. lia. }
  assert (Hmz : (0 < m)%Z) by (apply lt_IZR; exact HmR).
  unfold scaled. cbn [fst snd].
  rewrite rn_round by (try apply bits_pos; lia).
  rewrite <- round_scale by (try apply bits_pos; apply Rgt_not_eq, IZR_lt; lia).
  f_equal. rewrite mult_IZR, IZR_pow2, Hm, Rmult_assoc, <- bpow_plus by lia.
  replace (80 + (exp r - 159))%Z with (exp r - 79)%Z by lia.
  rewrite <- round_scale by (lia || lra). reflexivity.
Qed.

Lemma round_error p x : (0 < p)%Z -> 0 <= x ->
  Rabs (round radix2 (FLX_exp p) ZnearestE x - x) <= bpow radix2 (- p) * x.
Proof.
  intros Hp Hx. pose proof (@relative_error_N_FLX radix2 p Hp (fun n => negb (Z.even n)) x) as H.
  rewrite (Rabs_pos_eq x Hx) in H.
  replace (bpow radix2 (- p)) with (/ 2 * bpow radix2 (- p + 1)); [exact H|].
  rewrite bpow_plus. change (bpow radix2 1) with 2. field.
Qed.

Lemma last_rounding k r q : norm r -> 0 < q -> Rabs (V r - q) <= q * bpow radix2 (-130) ->
  exists t, 0 < t /\ Rabs (t - q) <= q * margin k
    /\ scaled (rn (bits k) (get_ld r), (exp r - 159)%Z) = round radix2 (FLX_exp (bits k)) ZnearestE t.
Proof.
  intros Hn Hq Hc. destruct (T_close r q Hn Hq Hc) as [HT0 HT].
  destruct k.
  1, 2: exists (round radix2 (FLX_exp 64) ZnearestE (T r)); cbn [margin];
    (split; [|split; [|apply literal_rounds; exact Hn]]);
    pose proof (round_error 64 (T r) ltac:(lia) ltac:(lra)) as HE; apply Rabs_le_inv in HE, HT;
    assert (H78 : bpow radix2 (-78) <= / 16 * bpow radix2 (-64))
      by (change (/ 16) with (bpow radix2 (-4)); rewrite <- bpow_plus; apply bpow_le; lia);
    assert (H63 : bpow radix2 (-63) = 2 * bpow radix2 (-64)) by (change (-63)%Z with (1 + -64)%Z; rewrite bpow_plus; reflexivity);
    assert (H64 : bpow radix2 (-64) <= / 8) by (apply Rle_trans with (bpow radix2 (-3)); [apply bpow_le; lia|cbn; lra]);
    change (- (64))%Z with (-64)%Z in HE;
    pose proof (bpow_gt_0 radix2 (-64)) as Hb; pose proof (bpow_gt_0 radix2 (-78)) as Hb2;
    set (a := bpow radix2 (-64)) in *; set (b := bpow radix2 (-78)) in *;
    assert (Hqa : 0 < q * a) by (apply Rmult_lt_0_compat; lra);
    assert (Hqb : q * b <= q * (/ 16 * a)) by (apply Rmult_le_compat_l; lra);
    assert (Hqa8 : q * a <= q * / 8) by (apply Rmult_le_compat_l; lra);
    assert (HaT : a * T r <= a * (q + q * (/ 16 * a))) by (apply Rmult_le_compat_l; lra);
    assert (Haa : q * a * a <= q * a * / 8) by (apply Rmult_le_compat_l; lra);
    try (apply Rabs_le; rewrite H63; split); lra.
  exists (T r). split; [exact HT0|]. split; [exact HT|]. rewrite literal_rounds by exact Hn.
  cbn [bits]. apply round_generic; auto with typeclass_instances.
  apply generic_format_round; auto with typeclass_instances. apply (@FLX_exp_valid 64). reflexivity.
Qed.

(** ** The theorems *)

Lemma literal_spec k base ints fracs ex :
  literal_ok base ints fracs -> exponent_ok ex -> bounded ints fracs ex ->
  exists x, float_literal k base ints fracs ex = Ok x
    /\ ((written base ints fracs ex = 0 /\ scaled x = 0)
        \/ (0 < written base ints fracs ex
            /\ exists t, 0 < t /\ Rabs (t - written base ints fracs ex) <= written base ints fracs ex * margin k
               /\ scaled x = nearest (bits k) t)).
Proof.
  intros H1 H2 [H3 H4]. destruct (scan_float_ok base ints fracs ex H1 H2 H3 H4) as (r & HE & HC).
  unfold float_literal. rewrite HE. cbn [obind]. eexists. split; [reflexivity|].
  destruct HC as [[Hq Hs]|(Hq & Hn & Hc)].
  - left. split; [exact Hq|]. unfold scaled. cbn [fst snd].
    assert (get_ld r = 0%Z) as ->.
    { unfold get_ld. rewrite Hs. vm_compute. reflexivity. }
    rewrite rn_0 by apply bits_pos. ring.
  - right. split; [exact Hq|]. exact (last_rounding k r _ Hn Hq Hc).
Qed.

Lemma literal_nearest k base ints fracs ex :
  literal_ok base ints fracs -> exponent_ok ex -> bounded ints fracs ex ->
  let q := written base ints fracs ex in
  (forall y, midpoint (bits k) y -> q * margin k < Rabs (q - y)) ->
  exists x, float_literal k base ints fracs ex = Ok x /\ scaled x = nearest (bits k) q.
Proof.
  intros H1 H2 H3 q HM. destruct (literal_spec k base ints fracs ex H1 H2 H3) as (x & HE & [[Hq Hx]|(Hq & t & Ht & Hd & Hx)]);
    exists x; (split; [exact HE|]); fold q in Hq.
  - rewrite Hq, Hx. unfold nearest. rewrite round_0; [reflexivity|auto with typeclass_instances].
  - rewrite Hx. apply (round_stable (bits k) (bits_pos k) t q (q * margin k)); [exact Hd|exact HM].
Qed.

Lemma literal_exact k base ints fracs ex :
  literal_ok base ints fracs -> exponent_ok ex -> bounded ints fracs ex ->
  let q := written base ints fracs ex in
  generic_format radix2 (FLX_exp (bits k)) q ->
  exists x, float_literal k base ints fracs ex = Ok x /\ scaled x = q.
Proof.
  intros H1 H2 H3 q HF. destruct (literal_spec k base ints fracs ex H1 H2 H3) as (x & HE & [[Hq Hx]|(Hq & t & Ht & Hd & Hx)]);
    exists x; (split; [exact HE|]); fold q in Hq.
  - rewrite Hq, Hx. reflexivity.
  - rewrite Hx. apply round_exact; [apply bits_pos|exact HF|exact Hq|]. fold q in Hd.
    eapply Rle_trans; [exact Hd|]. apply Rmult_le_compat_l; [lra|].
    destruct k; cbn [margin bits]; apply bpow_le; lia.
Qed.

Lemma literal_error k base ints fracs ex :
  literal_ok base ints fracs -> exponent_ok ex -> bounded ints fracs ex ->
  let q := written base ints fracs ex in
  exists x, float_literal k base ints fracs ex = Ok x /\ Rabs (scaled x - q) <= q * tolerance k.
Proof.
  intros H1 H2 H3 q. destruct (literal_spec k base ints fracs ex H1 H2 H3) as (x & HE & [[Hq Hx]|(Hq & t & Ht & Hd & Hx)]);
    exists x; (split; [exact HE|]); fold q in Hq.
  - rewrite Hq, Hx. rewrite Rminus_0_r, Rabs_R0. lra.
  - fold q in Hd. pose proof (round_error (bits k) t (bits_pos k) ltac:(lra)) as HR. fold (nearest (bits k) t) in HR.
    rewrite <- Hx in HR.
    assert (HM : bpow radix2 (- bits k) * margin k <= margin k / 4).
    { rewrite Rmult_comm. unfold Rdiv. apply Rmult_le_compat_l; [destruct k; apply bpow_ge_0|].
      apply Rle_trans with (bpow radix2 (-2)); [apply bpow_le; destruct k; cbn; lia|cbn; lra]. }
    assert (HT : tolerance k = bpow radix2 (- bits k) + 2 * margin k).
    { unfold tolerance. f_equal. destruct k; cbn [margin];
        [change (-62)%Z with (1 + -63)%Z|change (-62)%Z with (1 + -63)%Z|change (-77)%Z with (1 + -78)%Z];
        rewrite bpow_plus; reflexivity. }
    rewrite HT.
    assert (HM0 : 0 < margin k) by (destruct k; apply bpow_gt_0).
    pose proof (bpow_gt_0 radix2 (- bits k)) as Hb0.
    set (b := bpow radix2 (- bits k)) in *. set (m := margin k) in *.
    apply Rabs_le_inv in Hd, HR.
    assert (Hbt : b * t <= b * (q + q * m)) by (apply Rmult_le_compat_l; lra).
    assert (Hqm : q * (b * m) <= q * (m / 4)) by (apply Rmult_le_compat_l; lra).
    assert (Hqm0 : 0 < q * m) by (apply Rmult_lt_0_compat; lra).
    apply Rabs_le. split; lra.
Qed.
