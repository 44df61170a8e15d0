From Verif Require Import Base BitCount.

Lemma low_step_spec w m k bit : 0 <= k -> 0 < w -> Z.odd m = true ->
  low_step w (2 ^ w - 1) (m * 2 ^ k, bit)
  = if w <=? k then (m * 2 ^ (k - w), bit + w) else (m * 2 ^ k, bit).
Proof.
  intros Hk Hw Hm. unfold low_step.
  replace (2 ^ w - 1) with (Z.ones w) by (rewrite Z.ones_equiv; lia).
  rewrite Z.land_ones by lia.
  destruct (w <=? k) eqn:E.
  - replace (2 ^ k) with (2 ^ (k - w) * 2 ^ w) by (rewrite <- Z.pow_add_r by lia; f_equal; lia).
    rewrite Z.mul_assoc, Z.mod_mul by (apply Z.pow_nonzero; lia). rewrite Z.eqb_refl.
    rewrite Z.shiftr_div_pow2, Z.div_mul by (try apply Z.pow_nonzero; lia). reflexivity.
  - destruct (m * 2 ^ k mod 2 ^ w =? 0) eqn:Z0; [|reflexivity]. exfalso.
    apply Z.eqb_eq, Z.mod_divide in Z0; [|apply Z.pow_nonzero; lia].
    destruct Z0 as [c Hc].
    replace (2 ^ w) with (2 ^ (w - k) * 2 ^ k) in Hc by (rewrite <- Z.pow_add_r by lia; f_equal; lia).
    rewrite Z.mul_assoc in Hc. apply Z.mul_reg_r in Hc; [|apply Z.pow_nonzero; lia].
    subst m. rewrite Z.odd_mul in Hm.
    replace (w - k) with (Z.succ (w - k - 1)) in Hm by lia.
    rewrite Z.pow_succ_r in Hm by lia. rewrite Z.odd_mul in Hm. cbn in Hm.
    rewrite andb_false_r in Hm. discriminate.
Qed.

Lemma low_bit_power m k : Z.odd m = true -> 0 <= k <= 61 -> low_bit (m * 2 ^ k) = k + 1.
Proof.
  intros Hm Hk. unfold low_bit.
  assert (P : 0 < 2 ^ k) by (apply Z.pow_pos_nonneg; lia).
  assert (m <> 0) by (intros ->; discriminate).
  destruct (m * 2 ^ k =? 0) eqn:E; [lia|]. clear E.
  change 1073741823 with (2 ^ 30 - 1). change 65535 with (2 ^ 16 - 1).
  change 255 with (2 ^ 8 - 1). change 15 with (2 ^ 4 - 1). change 3 with (2 ^ 2 - 1).
  assert (L : forall j, 0 <= j <= 1 -> Z.land (m * 2 ^ j) 1 = 1 - j).
  { intros j Hj. change 1 with (Z.ones 1) at 1. rewrite Z.land_ones by lia.
    change (2 ^ 1) with 2. assert (j = 0 \/ j = 1) as [-> | ->] by lia.
    - rewrite Z.mul_1_r, Zmod_odd, Hm. reflexivity.
    - rewrite Z.mod_mul by lia. reflexivity. }
  assert (G : forall w j b, 0 <= j -> 0 < w ->
     exists j', low_step w (2 ^ w - 1) (m * 2 ^ j, b) = (m * 2 ^ j', b + (j - j'))
                /\ 0 <= j' <= j /\ (j' = j /\ j < w \/ j' = j - w)).
  { intros w j b Hj Hw. rewrite low_step_spec by assumption.
    destruct (w <=? j) eqn:E.
    - exists (j - w). split; [f_equal; lia|lia].
    - exists j. split; [f_equal; lia|lia]. }
  destruct (G 30 k 2) as (k1 & E1 & R1 & C1); [lia..|]. rewrite E1.
  destruct (G 16 k1 (2 + (k - k1))) as (k2 & E2 & R2 & C2); [lia..|]. rewrite E2.
  destruct (G 8 k2 (2 + (k - k1) + (k1 - k2))) as (k3 & E3 & R3 & C3); [lia..|]. rewrite E3.
  destruct (G 4 k3 (2 + (k - k1) + (k1 - k2) + (k2 - k3))) as (k4 & E4 & R4 & C4); [lia..|]. rewrite E4.
  destruct (G 2 k4 (2 + (k - k1) + (k1 - k2) + (k2 - k3) + (k3 - k4))) as (k5 & E5 & R5 & C5); [lia..|].
  rewrite E5. rewrite L by lia. lia.
Qed.

(* Every non-zero integer is an odd number times a power of two. *)
Lemma odd_part n : n <> 0 -> exists m k, n = m * 2 ^ k /\ Z.odd m = true /\ 0 <= k.
Proof.
  intros Hn.
  assert (G : forall p : positive, exists m k, Z.pos p = m * 2 ^ k /\ Z.odd m = true /\ 0 <= k).
  { induction p as [p IH|p IH|].
    - exists (Z.pos p~1), 0. rewrite Z.mul_1_r. repeat split; lia.
    - destruct IH as (m & k & H & Hm & Hk). exists m, (k + 1).
      rewrite Z.pow_add_r by lia. rewrite Pos2Z.inj_xO. change (2 ^ 1) with 2.
      split; [rewrite H; ring|]. split; [assumption|lia].
    - exists 1, 0. repeat split; lia. }
  destruct n as [|p|p]; [contradiction|apply G|].
  destruct (G p) as (m & k & H & Hm & Hk). exists (- m), k.
  rewrite Z.odd_opp. split; [|split; [assumption|lia]].
  change (Z.neg p) with (- Z.pos p). rewrite H. ring.
Qed.

Lemma low_bit_spec n : n <> 0 -> - 2 ^ 62 < n < 2 ^ 62 ->
  exists m k, n = m * 2 ^ k /\ Z.odd m = true /\ 0 <= k /\ low_bit n = k + 1.
Proof.
  intros Hn Hr. destruct (odd_part n Hn) as (m & k & -> & Hm & Hk). exists m, k.
  repeat split; try assumption. apply low_bit_power; [assumption|].
  assert (k < 62 \/ 62 <= k) as [|Hbig] by lia; [lia|]. exfalso.
  assert (2 ^ 62 <= 2 ^ k) by (apply Z.pow_le_mono_r; lia).
  assert (m <> 0) by (intros ->; discriminate). nia.
Qed.

(** highBit *)
Lemma high_step_spec w n bit : 0 < w -> 0 < n ->
  let '(n', bit') := high_step w (2 ^ w - 1) (n, bit) in
  n' = n / 2 ^ (bit' - bit) /\ ((bit' = bit /\ n < 2 ^ w) \/ (bit' = bit + w /\ 2 ^ w <= n)).
Proof.
  intros Hw Hn. unfold high_step. destruct (n >? 2 ^ w - 1) eqn:E.
  - rewrite Z.shiftr_div_pow2 by lia. replace (bit + w - bit) with w by lia.
    split; [reflexivity|]. right. lia.
  - rewrite Z.sub_diag, Z.div_1_r. split; [reflexivity|]. left. lia.
Qed.

Lemma log2_shift n w : 0 <= w -> 2 ^ w <= n -> Z.log2 (n / 2 ^ w) = Z.log2 n - w.
Proof.
  intros Hw Hn. rewrite <- Z.shiftr_div_pow2 by lia.
  assert (0 < 2 ^ w) by (apply Z.pow_pos_nonneg; lia).
  rewrite Z.log2_shiftr by lia.
  assert (w <= Z.log2 n) by (apply Z.log2_le_pow2; lia). lia.
Qed.

(* log2 of the first component plus the count is preserved by each step. *)
Lemma high_step_log w n bit : 0 < w -> 0 < n ->
  let s := high_step w (2 ^ w - 1) (n, bit) in
  0 < fst s /\ snd s + Z.log2 (fst s) = bit + Z.log2 n /\
  ((Z.log2 n < w /\ Z.log2 (fst s) = Z.log2 n) \/ (w <= Z.log2 n /\ Z.log2 (fst s) = Z.log2 n - w)).
Proof.
  intros Hw Hn. pose proof (high_step_spec w n bit Hw Hn) as H.
  destruct (high_step w (2 ^ w - 1) (n, bit)) as [n' bit']. cbn [fst snd].
  destruct H as [-> [[-> Hl]|[-> Hl]]].
  - rewrite Z.sub_diag, Z.div_1_r. split; [lia|split; [lia|]]. left.
    split; [|reflexivity]. apply Z.log2_lt_pow2; lia.
  - replace (bit + w - bit) with w by lia. rewrite log2_shift by lia.
    assert (0 < 2 ^ w) by (apply Z.pow_pos_nonneg; lia).
    assert (w <= Z.log2 n) by (apply Z.log2_le_pow2; lia).
    split; [|split; [lia|right; lia]].
    apply Z.div_str_pos. lia.
Qed.

Lemma high_loop_spec fuel n bit : 0 < n -> Z.log2 n < 30 * (Z.of_nat fuel) ->
  exists n' bit', high_loop fuel n bit = Ok (n', bit') /\ 0 < n' /\ Z.log2 n' < 30 /\
    bit' + Z.log2 n' = bit + Z.log2 n.
Proof.
  revert n bit. induction fuel as [|f IH]; intros n bit Hn Hl.
  - pose proof (Z.log2_nonneg n). lia.
  - cbn [high_loop]. destruct (n >? 1073741823) eqn:E.
    + assert (2 ^ 30 <= n) by lia.
      assert (30 <= Z.log2 n) by (apply Z.log2_le_pow2; lia).
      rewrite Z.shiftr_div_pow2 by lia.
      destruct (IH (n / 2 ^ 30) (bit + 30)) as (n' & b' & H1 & H2 & H3 & H4).
      * apply Z.div_str_pos. lia.
      * rewrite log2_shift by lia. lia.
      * exists n', b'. rewrite log2_shift in H4 by lia. repeat split; try assumption; lia.
    + exists n, bit. repeat split; try lia. apply Z.log2_lt_pow2; lia.
Qed.

Lemma high_tail n bit : 0 < n -> Z.log2 n < 30 ->
  (let s := high_step 16 65535 (n, bit) in
    let s := high_step 8 255 s in
    let s := high_step 4 15 s in
    let s := high_step 2 3 s in
    let '(n, bit) := high_step 1 1 s in
    n + bit) = bit + Z.log2 n + 1.
Proof.
  intros Hn Hl. cbv zeta.
  change 65535 with (2 ^ 16 - 1). change 255 with (2 ^ 8 - 1).
  change 15 with (2 ^ 4 - 1). change 3 with (2 ^ 2 - 1).
  change (high_step 1 1) with (high_step 1 (2 ^ 1 - 1)).
  pose proof (high_step_log 16 n bit ltac:(lia) Hn) as H1.
  destruct (high_step 16 (2 ^ 16 - 1) (n, bit)) as [n1 b1]. cbn [fst snd] in H1.
  destruct H1 as (P1 & Q1 & R1).
  pose proof (high_step_log 8 n1 b1 ltac:(lia) P1) as H2.
  destruct (high_step 8 (2 ^ 8 - 1) (n1, b1)) as [n2 b2]. cbn [fst snd] in H2.
  destruct H2 as (P2 & Q2 & R2).
  pose proof (high_step_log 4 n2 b2 ltac:(lia) P2) as H3.
  destruct (high_step 4 (2 ^ 4 - 1) (n2, b2)) as [n3 b3]. cbn [fst snd] in H3.
  destruct H3 as (P3 & Q3 & R3).
  pose proof (high_step_log 2 n3 b3 ltac:(lia) P3) as H4.
  destruct (high_step 2 (2 ^ 2 - 1) (n3, b3)) as [n4 b4]. cbn [fst snd] in H4.
  destruct H4 as (P4 & Q4 & R4).
  pose proof (high_step_log 1 n4 b4 ltac:(lia) P4) as H5.
  destruct (high_step 1 (2 ^ 1 - 1) (n4, b4)) as [n5 b5]. cbn [fst snd] in H5.
  destruct H5 as (P5 & Q5 & R5).
  assert (n5 = 1).
  { pose proof (Z.log2_nonneg n5). assert (Z.log2 n5 = 0) by lia.
    assert (~ 1 < n5). { intros H'. apply Z.log2_pos in H'. lia. } lia. }
  subst n5. change (Z.log2 1) with 0 in *. lia.
Qed.

Lemma land_opp_pow2 n : 0 < n -> (Z.land n (- n) =? n) = (n =? 2 ^ Z.log2 n).
Proof.
  intros Hn. pose proof (Z.log2_spec n Hn) as [L U]. set (k := Z.log2 n) in *.
  assert (Hk : 0 <= k) by apply Z.log2_nonneg.
  assert (E : Z.land n (- n) = Z.ldiff n (n - 1)).
  { rewrite Z.ldiff_land. f_equal. unfold Z.lnot. lia. }
  rewrite E. destruct (n =? 2 ^ k) eqn:C.
  - apply Z.eqb_eq in C. rewrite C. apply Z.eqb_eq.
    replace (2 ^ k - 1) with (Z.ones k) by (rewrite Z.ones_equiv; lia).
    rewrite Z.ldiff_ones_r by lia. rewrite Z.shiftr_div_pow2, Z.div_same by (try apply Z.pow_nonzero; lia).
    rewrite Z.shiftl_mul_pow2 by lia. lia.
  - apply Z.eqb_neq in C. apply Z.eqb_neq. intros H.
    assert (T : Z.testbit (Z.ldiff n (n - 1)) k = Z.testbit n k) by (rewrite H; reflexivity).
    rewrite Z.ldiff_spec in T.
    assert (B : forall x, 2 ^ k <= x < 2 ^ Z.succ k -> Z.testbit x k = true).
    { intros x Hx. rewrite Z.testbit_true by assumption. rewrite Z.pow_succ_r in Hx by assumption.
      replace (x / 2 ^ k) with 1; [reflexivity|].
      apply (Z.div_unique _ _ _ (x - 2 ^ k)); lia. }
    rewrite (B n), (B (n - 1)) in T by lia. discriminate.
Qed.

Lemma high_bit_pos fuel n : 0 < n -> Z.log2 n < 30 * Z.of_nat fuel ->
  high_bit fuel n = Ok (Z.log2 n + 1).
Proof.
  intros Hn Hf. unfold high_bit. replace (n =? 0) with false by lia.
  replace (n <? 0) with false by lia.
  destruct (high_loop_spec fuel n 0 Hn Hf) as (n' & b' & -> & P & L & E).
  pose proof (high_tail n' b' P L) as T. cbv zeta in T. cbv zeta.
  destruct (high_step 1 1 _) as [x y]. f_equal. lia.
Qed.

Lemma high_bit_neg fuel n : n < 0 -> Z.log2 (- n) < 30 * Z.of_nat fuel ->
  high_bit fuel n = Ok (Z.log2 (- n) + 1 + (if - n =? 2 ^ Z.log2 (- n) then 0 else 1)).
Proof.
  intros Hn Hf. unfold high_bit. replace (n =? 0) with false by lia.
  replace (n <? 0) with true by lia.
  pose proof (land_opp_pow2 (- n) ltac:(lia)) as HL. rewrite Z.opp_involutive in HL. rewrite HL.
  set (b0 := if - n =? 2 ^ Z.log2 (- n) then 0 else 1).
  destruct (high_loop_spec fuel (- n) b0 ltac:(lia) Hf) as (n' & b' & -> & P & L & E).
  pose proof (high_tail n' b' P L) as T. cbv zeta in T. cbv zeta.
  destruct (high_step 1 1 _) as [x y]. f_equal. lia.
Qed.

Lemma log2_small x : 0 < x <= 2 ^ 62 -> Z.log2 x < 90.
Proof. intros H. apply Z.log2_lt_pow2; [lia|]. assert (2 ^ 62 < 2 ^ 90) by reflexivity. lia. Qed.

Lemma high_bit_pos_spec n : 0 < n < 2 ^ 62 ->
  exists h, (forall fuel, (3 <= fuel)%nat -> high_bit fuel n = Ok h) /\ 2 ^ (h - 1) <= n < 2 ^ h.
Proof.
  intros Hn. exists (Z.log2 n + 1). split.
  - intros fuel Hf. apply high_bit_pos; [lia|]. pose proof (log2_small n ltac:(lia)). lia.
  - replace (Z.log2 n + 1 - 1) with (Z.log2 n) by lia.
    pose proof (Z.log2_spec n ltac:(lia)). lia.
Qed.

Lemma high_bit_neg_spec n : - 2 ^ 62 <= n < 0 ->
  exists h, (forall fuel, (3 <= fuel)%nat -> high_bit fuel n = Ok h) /\ 1 <= h /\
    - 2 ^ (h - 1) <= n /\ (h = 1 \/ n < - 2 ^ (h - 2)).
Proof.
  intros Hn. eexists. split.
  - intros fuel Hf. apply high_bit_neg; [lia|]. pose proof (log2_small (- n) ltac:(lia)). lia.
  - pose proof (Z.log2_spec (- n) ltac:(lia)) as [L U]. set (k := Z.log2 (- n)) in *.
    assert (0 <= k) by apply Z.log2_nonneg.
    rewrite Z.pow_succ_r in U by assumption.
    destruct (- n =? 2 ^ k) eqn:E.
    + replace (k + 1 + 0 - 1) with k by lia. replace (k + 1 + 0 - 2) with (k - 1) by lia.
      split; [lia|split; [lia|]].
      assert (k = 0 \/ 0 < k) as [->|Hk] by lia; [left; reflexivity|right].
      assert (2 ^ (k - 1) < 2 ^ k) by (apply Z.pow_lt_mono_r; lia). lia.
    + replace (k + 1 + 1 - 1) with (Z.succ k) by lia. replace (k + 1 + 1 - 2) with k by lia.
      rewrite Z.pow_succ_r by assumption. lia.
Qed.
