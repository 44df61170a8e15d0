From Coq Require Import Znumtheory.
From Verif Require Import Base IntMath IntMathSpec.

Lemma log2_div n b : 2 <= b -> b <= n -> Z.log2 (n / b) < Z.log2 n.
Proof.
  intros B N. assert (1 <= n / b) by (apply Z.div_le_lower_bound; lia).
  assert (n / b <= n / 2) by (apply Z.div_le_compat_l; lia).
  apply Z.le_lt_trans with (Z.log2 (n / 2)); [apply Z.log2_le_mono; assumption|].
  change (n / 2) with (n / 2 ^ 1). rewrite <- (Z.shiftr_div_pow2 n 1) by lia. rewrite Z.log2_shiftr by lia.
  assert (1 <= Z.log2 n) by (apply Z.log2_le_pow2; cbn; lia). lia.
Qed.

(** ** Logarithms *)
Lemma floor_loop_ok fuel : forall me b acc, 2 <= b -> 1 <= me -> Z.log2 me < Z.of_nat fuel ->
  exists e, floor_loop fuel me b acc = Ok (acc + e) /\ is_floor_log b me e.
Proof.
  induction fuel as [|f IH]; intros me b acc B M F.
  - pose proof (Z.log2_nonneg me). lia.
  - cbn [floor_loop]. destruct (me >=? b) eqn:G.
    + assert (b <= me) by lia.
      assert (1 <= me / b) by (apply Z.div_le_lower_bound; lia).
      destruct (IH (me / b) b (acc + 1) B) as (e & E & E0 & E1); [lia| |].
      { pose proof (log2_div me b B). lia. }
      exists (e + 1). split; [rewrite E; f_equal; lia|]. split; [lia|].
      rewrite (Z.pow_add_r b (e + 1) 1), (Z.pow_add_r b e 1), Z.pow_1_r in * by lia.
      pose proof (Z.div_mod me b ltac:(lia)). pose proof (Z.mod_pos_bound me b ltac:(lia)).
      set (q := me / b) in *. set (r := me mod b) in *. clearbody q r. clear IH E. 
      nia.
    + exists 0. split; [f_equal; lia|]. split; [lia|]. cbn [Z.add].
      rewrite Z.pow_0_r, Z.pow_1_r. lia.
Qed.

Lemma floorLog_ok n b : 2 <= b -> 1 <= n -> exists e, floorLog n b = Ok e /\ is_floor_log b n e.
Proof.
  intros B N. unfold floorLog, log_fuel.
  destruct (n <? 0) eqn:?; [lia|]. destruct (b <=? 1) eqn:?; [lia|].
  destruct (floor_loop_ok (S (Z.to_nat (Z.log2 n))) n b 0 B N) as (e & E & S).
  { pose proof (Z.log2_nonneg n). lia. }
  exists e. rewrite E. auto.
Qed.
Lemma floorLog_0 b : 2 <= b -> floorLog 0 b = Ok 0.
Proof.
  intros B. unfold floorLog. cbn [Z.ltb Z.compare]. destruct (b <=? 1) eqn:?; [lia|].
  cbn [log_fuel Z.log2 Z.to_nat floor_loop]. destruct (0 >=? b) eqn:?; [lia|reflexivity].
Qed.
Lemma floorLog_err n b : n < 0 \/ b <= 1 -> floorLog n b = Err /\ ceilingLog n b = Err.
Proof.
  intros H. unfold floorLog, ceilingLog. destruct (n <? 0) eqn:?; [auto|]. destruct (b <=? 1) eqn:?; [auto|lia].
Qed.

(** What ceilingLog: answers: the number of digits of n not counting a leading 1 ...:
    the least e >= 1 with n < (b+1) * b^(e-1). *)
Lemma ceiling_loop_ok fuel : forall me b acc, 2 <= b -> 1 <= me -> Z.log2 me < Z.of_nat fuel ->
  exists e, ceiling_loop fuel me b acc = Ok (acc + e) /\ 0 <= e /\ me < (b + 1) * b ^ e /\
    (e = 0 \/ (b + 1) * b ^ (e - 1) <= me).
Proof.
  induction fuel as [|f IH]; intros me b acc B M F.
  - pose proof (Z.log2_nonneg me). lia.
  - cbn [ceiling_loop]. destruct (me >? b) eqn:G.
    + assert (b < me) by lia.
      assert (1 <= me / b) by (apply Z.div_le_lower_bound; lia).
      destruct (IH (me / b) b (acc + 1) B) as (e & E & E0 & E1 & E2); [lia| |].
      { pose proof (log2_div me b B). lia. }
      exists (e + 1). split; [rewrite E; f_equal; lia|]. split; [lia|].
      pose proof (Z.div_mod me b ltac:(lia)). pose proof (Z.mod_pos_bound me b ltac:(lia)). split.
      * replace (e + 1) with (Z.succ e) by lia. rewrite Z.pow_succ_r by lia. nia.
      * right. replace (e + 1 - 1) with e by lia. destruct (Z.eq_dec e 0) as [->|Hne].
        -- rewrite Z.pow_0_r. lia.
        -- destruct E2 as [?|E2]; [lia|].
           replace (b ^ e) with (b * b ^ (e - 1)); [nia|].
           rewrite <- Z.pow_succ_r by lia. f_equal. lia.
    + exists 0. split; [f_equal; lia|]. split; [lia|]. rewrite Z.pow_0_r. lia.
Qed.

Lemma ceilingLog_ok n b : 2 <= b -> 1 <= n ->
  exists e, ceilingLog n b = Ok (e + 1) /\ 0 <= e /\ n < (b + 1) * b ^ e /\
    (e = 0 \/ (b + 1) * b ^ (e - 1) <= n).
Proof.
  intros B N. unfold ceilingLog, log_fuel.
  destruct (n <? 0) eqn:?; [lia|]. destruct (b <=? 1) eqn:?; [lia|].
  destruct (ceiling_loop_ok (S (Z.to_nat (Z.log2 n))) n b 1 B N) as (e & E & S).
  { pose proof (Z.log2_nonneg n). lia. }
  exists e. rewrite E, Z.add_comm. auto.
Qed.

Lemma ceilingLog_bounds n b : 2 <= b -> 2 <= n ->
  exists r, ceilingLog n b = Ok r /\ 1 <= r /\ b ^ (r - 1) < n < b ^ r + b ^ (r - 1) /\
    (is_ceiling_log b n r <-> n <= b ^ r).
Proof.
  intros B N. destruct (ceilingLog_ok n b B ltac:(lia)) as (e & E & E0 & E1 & E2).
  exists (e + 1). split; [assumption|]. split; [lia|].
  replace (e + 1 - 1) with e by lia.
  assert (P : b ^ (e + 1) = b * b ^ e) by (replace (e + 1) with (Z.succ e) by lia; apply Z.pow_succ_r; lia).
  assert (L : b ^ e < n).
  { destruct (Z.eq_dec e 0) as [->|Hne]; [rewrite Z.pow_0_r; lia|]. destruct E2 as [?|E2]; [lia|].
    assert (b ^ e = b * b ^ (e - 1)) by (rewrite <- Z.pow_succ_r by lia; f_equal; lia).
    assert (0 < b ^ (e - 1)) by (apply Z.pow_pos_nonneg; lia). nia. }
  split; [nia|]. unfold is_ceiling_log. replace (e + 1 - 1) with e by lia. split; [tauto|].
  intros. split; [lia|]. auto.
Qed.

(** ** Greatest common divisors *)
Lemma euclid_ok k : forall a b, 0 <= a -> 0 <= b < 2 ^ Z.of_nat k ->
  euclid (2 * k) a b = Ok (Z.gcd a b).
Proof.
  induction k as [|k IH]; intros a b A B.
  - change (2 ^ Z.of_nat 0) with 1 in B. replace b with 0 by lia. cbn. rewrite Z.gcd_0_r, Z.abs_eq by lia. reflexivity.
  - assert (B2 : b < 2 * 2 ^ Z.of_nat k) by (rewrite <- Z.pow_succ_r by lia; rewrite <- Nat2Z.inj_succ; lia).
    replace (2 * S k)%nat with (S (S (2 * k))) by lia. cbn [euclid].
    destruct (b =? 0) eqn:E.
    { apply Z.eqb_eq in E. subst. rewrite Z.gcd_0_r, Z.abs_eq by lia. reflexivity. }
    pose proof (Z.mod_pos_bound a b ltac:(lia)) as R.
    assert (G : Z.gcd a b = Z.gcd b (a mod b)) by (rewrite (Z.gcd_comm b), Z.gcd_mod by lia; apply Z.gcd_comm).
    rewrite G. set (r := a mod b) in *. clearbody r.
    destruct (r =? 0) eqn:E'.
    { apply Z.eqb_eq in E'. subst. rewrite Z.gcd_0_r, Z.abs_eq by lia. reflexivity. }
    rewrite IH; [|lia|].
    + f_equal. rewrite (Z.gcd_comm r), Z.gcd_mod by lia. apply Z.gcd_comm.
    + pose proof (Z.mod_pos_bound b r ltac:(lia)). split; [lia|].
      pose proof (Z.div_mod b r ltac:(lia)) as D. assert (1 <= b / r) by (apply Z.div_le_lower_bound; lia).
      set (q := b / r) in *. set (m := b mod r) in *. clearbody q m. nia.
Qed.
Lemma log_fuel_bound b : 0 <= b -> b < 2 ^ Z.of_nat (log_fuel b).
Proof.
  intros B. unfold log_fuel. pose proof (Z.log2_nonneg b).
  replace (Z.of_nat (S (Z.to_nat (Z.log2 b)))) with (Z.succ (Z.log2 b)) by lia.
  destruct (Z.eq_dec b 0) as [->|]; [reflexivity|]. apply Z.log2_spec. lia.
Qed.

Lemma large_gcd_pos a b : 0 <= a -> 0 <= b -> large_gcd a b = Z.gcd a b.
Proof.
  intros A B. unfold large_gcd. destruct (a =? 0) eqn:?; [|destruct (b =? 0) eqn:?]; cbn [orb].
  - replace a with 0 by lia. rewrite Z.gcd_0_l. lia.
  - replace b with 0 by lia. rewrite Z.gcd_0_r. lia.
  - reflexivity.
Qed.

Lemma gcd_pos_ok a b : 0 <= a -> 0 <= b -> gcd_pos a b = Ok (Z.gcd a b).
Proof.
  intros A B. unfold gcd_pos. destruct (is_small a); [|rewrite large_gcd_pos by assumption; reflexivity].
  destruct (a <? b).
  - rewrite Z.gcd_comm. apply euclid_ok; [lia|]. split; [lia|]. apply log_fuel_bound. lia.
  - apply euclid_ok; [lia|]. split; [lia|]. apply log_fuel_bound. lia.
Qed.

Lemma int_gcd_ok a b : ~ (a < - 2 ^ 62 /\ b = 0) -> int_gcd a b = Ok (Z.gcd a b).
Proof.
  intros H. unfold int_gcd. destruct (is_small a) eqn:S.
  - destruct (_ || _) eqn:N.
    + rewrite gcd_pos_ok by lia. rewrite Z.gcd_abs_l, Z.gcd_abs_r. reflexivity.
    + rewrite orb_false_iff in N. apply gcd_pos_ok; lia.
  - unfold is_small in S. unfold large_gcd.
    destruct (a =? 0) eqn:?; [lia|]. destruct (b =? 0) eqn:?; cbn [orb]; [|reflexivity].
    replace b with 0 by lia. rewrite Z.gcd_0_r, Z.abs_eq by lia. f_equal. lia.
Qed.

Lemma int_gcd_zero a : a < - 2 ^ 62 -> int_gcd a 0 = Ok a.
Proof.
  intros H. unfold int_gcd, is_small. destruct (_ && _) eqn:?; [lia|]. unfold large_gcd.
  rewrite orb_true_r. f_equal. lia.
Qed.

Lemma div_exact_ok a b : b <> 0 -> div_exact a b = Ok (Z.quot a b).
Proof. intros B. unfold div_exact. destruct (b =? 0) eqn:?; [lia|reflexivity]. Qed.

Lemma quot_divide a b : b <> 0 -> (b | a) -> Z.quot a b = a / b.
Proof. intros B [k ->]. rewrite Z.quot_mul, Z.div_mul by assumption. reflexivity. Qed.

Lemma int_lcm_ok a b : int_lcm a b = Ok (Z.lcm a b).
Proof.
  unfold int_lcm. destruct (Z.eq_dec b 0) as [->|NB].
  - destruct (Z_lt_dec a (- 2 ^ 62)).
    + rewrite int_gcd_zero by assumption. cbn [obind]. rewrite div_exact_ok by lia. cbn [obind].
      rewrite Z.mul_0_r, Z.lcm_0_r. reflexivity.
    + rewrite int_gcd_ok by lia. cbn [obind]. unfold div_exact. rewrite Z.gcd_0_r, Z.lcm_0_r.
      destruct (Z.abs a =? 0) eqn:E; [destruct (a =? 0) eqn:?; [reflexivity|lia]|].
      cbn [obind]. rewrite Z.mul_0_r. reflexivity.
  - rewrite int_gcd_ok by lia. cbn [obind].
    assert (G : Z.gcd a b <> 0) by (intros E; apply Z.gcd_eq_0_r in E; lia).
    rewrite div_exact_ok by assumption. cbn [obind].
    rewrite quot_divide by (assumption || apply Z.gcd_divide_l).
    unfold Z.lcm. f_equal. f_equal.
    destruct (Z.gcd_divide_l a b) as [x X], (Z.gcd_divide_r a b) as [y Y].
    set (g := Z.gcd a b) in *. clearbody g. subst a b. rewrite !Z.div_mul by assumption. ring.
Qed.
