(** Lemmas about ScaledDecimals. *)
From Coq Require Import ZArith QArith Qround Qabs List Lia ZifyBool.
From Verif Require Import Base IntMath IntRep SmallInt Lex LexSpec LexProofs IntPrint IntPrintSpec IntPrintProofs
  Fraction FractionSpec FractionProofs FractionOrder ScaledD ScaledDSpec.
Import ListNotations.
Open Scope Z_scope.

Lemma new_ok r s : wf r -> 0 <= s -> sd_wf (sd_new r s) /\ (value (sd_new r s) == rval r)%Q /\ scale (sd_new r s) = s.
Proof.
  intros W E. destruct r as [z|n d]; unfold sd_new, sd_wf, value, fraction; cbn [as_frac num den scale rval wf].
  - split; [split; [split; [lia|apply Z.gcd_1_r]|auto]|]. split; [reflexivity|auto].
  - split; [split; auto|]. split; [reflexivity|auto].
Qed.

Lemma lift o q s : yields o q -> 0 <= s -> exactly (olet r := o in Ok (sd_new r s)) q s.
Proof.
  intros (r & -> & W & E) Hs. cbn [obind]. destruct (new_ok r s W Hs) as (A & B & C).
  eexists. split; [reflexivity|]. split; [auto|]. split; [rewrite B; auto|auto].
Qed.

Lemma plus_exact x y : sd_wf x -> sd_wf y ->
  exactly (sd_plus 1 x y) (value x + value y) (Z.max (scale x) (scale y)).
Proof. intros [X1 X2] [Y1 Y2]. apply lift; [|lia]. apply rat_plus_spec; auto. Qed.
Lemma minus_exact x y : sd_wf x -> sd_wf y ->
  exactly (sd_plus (-1) x y) (value x - value y) (Z.max (scale x) (scale y)).
Proof. intros [X1 X2] [Y1 Y2]. apply lift; [|lia]. apply rat_minus_spec; auto. Qed.
Lemma times_exact same x y : sd_wf x -> sd_wf y -> (same = true -> fraction x = fraction y) ->
  exactly (sd_times same x y) (value x * value y) (Z.max (scale x) (scale y)).
Proof. intros [X1 X2] [Y1 Y2] E. apply lift; [|lia]. apply rat_times_ok; auto. Qed.
Lemma divide_exact x y : sd_wf x -> sd_wf y -> ~ (value y == 0)%Q ->
  exactly (sd_divide x y) (value x / value y) (Z.max (scale x) (scale y)).
Proof. intros [X1 X2] [Y1 Y2] E. apply lift; [|lia]. apply rat_divide_ok; auto. Qed.
Lemma divide_zero x y : sd_wf x -> sd_wf y -> (value y == 0)%Q -> sd_divide x y = Err.
Proof. intros [X1 X2] [Y1 Y2] E. unfold sd_divide. rewrite rat_divide_zero; auto. Qed.
Lemma modulo_exact x y : sd_wf x -> sd_wf y -> ~ (value y == 0)%Q ->
  exactly (sd_modulo x y) (value x - inject_Z (Qfloor (value x / value y)) * value y) (Z.max (scale x) (scale y)).
Proof. intros [X1 X2] [Y1 Y2] E. apply lift; [|lia]. apply frac_modulo_ok; auto. Qed.

(** ** comparison *)
Lemma scaled_difference x y : sd_wf x -> sd_wf y -> exists m,
  sd_compare x y = rat_rounded m /\ wf m /\
  (rval m == (value x - value y) * inject_Z (10 ^ Z.min (scale x) (scale y)))%Q.
Proof.
  intros [X1 X2] [Y1 Y2]. unfold sd_compare.
  destruct (rat_minus_spec _ _ X1 Y1) as (d & -> & D1 & D2). cbn [obind].
  destruct (rat_times_ok false d (RInt (ten_to (Z.min (scale x) (scale y)))) D1 I ltac:(discriminate)) as (m & -> & M1 & M2).
  exists m. split; [reflexivity|]. split; [auto|]. rewrite M2, D2. reflexivity.
Qed.

Lemma integral_wf m z : wf m -> (rval m == inject_Z z)%Q -> m = RInt z \/ m = RFrac z 1.
Proof.
  destruct m as [u|n d]; cbn [rval wf]; intros W E.
  - left. f_equal. unfold Qeq in E. cbn in E. lia.
  - right. destruct W as [P G]. unfold Qeq in E. cbn [Qnum Qden inject_Z] in E. rewrite Z2Pos.id in E by auto.
    assert (D : (d | n)) by (exists z; lia).
    assert (d = 1). {
      assert (G2 : Z.gcd n d = d) by (rewrite Z.gcd_comm; apply Z.divide_gcd_iff; [lia|auto]). lia. }
    subst. f_equal. lia.
Qed.

Lemma rounded_integral m z : wf m -> (rval m == inject_Z z)%Q -> rat_rounded m = Ok z.
Proof.
  intros W E. destruct (integral_wf m z W E) as [->| ->]; [reflexivity|].
  destruct (Z.ltb_spec z 0).
  - rewrite rat_rounded_neg; auto. f_equal. rewrite E.
    replace (inject_Z z - (1 # 2))%Q with ((2 * z - 1) # 2)%Q.
    2:{ unfold inject_Z, Qminus, Qplus, Qopp. cbn [Qnum Qden]. f_equal. lia. }
    unfold Qceiling, Qfloor, Qopp. cbn [Qnum Qden].
    assert (- (2 * z - 1) / Z.pos 2 = - z). { symmetry. apply Z.div_unique with 1; lia. } lia.
  - rewrite rat_rounded_pos; auto. f_equal. rewrite E.
    replace (inject_Z z + (1 # 2))%Q with ((2 * z + 1) # 2)%Q.
    2:{ unfold inject_Z, Qplus. cbn [Qnum Qden]. f_equal. lia. }
    unfold Qfloor. symmetry. apply Z.div_unique with 1; lia.
Qed.

Lemma compare_units x y m n : sd_wf x -> sd_wf y -> scale x = scale y -> units x m -> units y n ->
  sd_compare x y = Ok (m - n).
Proof.
  intros X Y E U V. destruct (scaled_difference x y X Y) as (r & -> & W & R). apply rounded_integral; auto.
  rewrite R. unfold units in U, V. rewrite E, Z.min_id in *. rewrite <- E in *.
  unfold Qminus. rewrite Qmult_plus_distr_l, U.
  setoid_replace (- value y * inject_Z (10 ^ scale x))%Q with (- (value y * inject_Z (10 ^ scale x)))%Q by ring.
  rewrite V. unfold Zminus. rewrite inject_Z_plus, inject_Z_opp. reflexivity.
Qed.

(** ** what a comparison says in general *)
Lemma Qfloor_half_pos q : (0 <= q)%Q -> (0 < Qfloor (q + (1 # 2)) <-> ((1 # 2) <= q)%Q) /\ 0 <= Qfloor (q + (1 # 2)).
Proof.
  intros N. destruct q as [n d]. unfold Qle, Qfloor, Qplus in *. cbn [Qnum Qden] in *.
  pose proof (Z.div_mod (n * 2 + 1 * Z.pos d) (Z.pos (d * 2)) ltac:(lia)) as E.
  pose proof (Z.mod_pos_bound (n * 2 + 1 * Z.pos d) (Z.pos (d * 2)) ltac:(lia)) as B.
  split; [split; intros H|]; nia.
Qed.
Lemma Qceiling_half_neg q : (q <= 0)%Q -> (Qceiling (q - (1 # 2)) < 0 <-> (q <= - (1 # 2))%Q) /\ Qceiling (q - (1 # 2)) <= 0.
Proof.
  intros N. unfold Qceiling.
  assert (E : Qfloor (- (q - (1 # 2))) = Qfloor (- q + (1 # 2))) by (apply Qfloor_comp; ring).
  rewrite E. destruct (Qfloor_half_pos (- q)) as [A B].
  { rewrite <- (Qopp_involutive q) in N. destruct q as [n d]. unfold Qle in *. cbn in *. lia. }
  split; [|lia]. split; intros H.
  - assert (H2 : 0 < Qfloor (- q + (1 # 2))) by lia. apply A in H2.
    destruct q as [n d]. unfold Qle in *. cbn in *. lia.
  - enough (0 < Qfloor (- q + (1 # 2))) by lia. apply A. destruct q as [n d]. unfold Qle in *. cbn in *. lia.
Qed.

Lemma denominator_bound x y m k : sd_wf x -> sd_wf y -> wf m ->
  (rval m == (value x - value y) * inject_Z k)%Q -> forall n d, m = RFrac n d -> d <= den x * den y.
Proof.
  intros [[X1 X2] _] [[Y1 Y2] _] W E n d ->.
  apply (divides_denominator (RFrac n d) ((ScaledD.num x * den y - ScaledD.num y * den x) * k) (den x * den y) W ltac:(nia)) with n; [|reflexivity].
  rewrite E. unfold value, fraction. cbn [rval].
  destruct (den x) as [|a|a]; try lia. destruct (den y) as [|b|b]; try lia.
  unfold Qeq, Qmult, Qminus, Qplus, Qopp, inject_Z. cbn -[Z.mul Z.add Pos.mul].
  rewrite !Pos2Z.inj_mul, Z2Pos.id by lia. ring.
Qed.

Lemma compare_general x y : sd_wf x -> sd_wf y -> 2 * (den x * den y) < 2 ^ 62 ->
  let gap := ((value x - value y) * inject_Z (10 ^ Z.min (scale x) (scale y)))%Q in
  exists c, sd_compare x y = Ok c /\ (c < 0 <-> (gap <= - (1 # 2))%Q) /\ (0 < c <-> ((1 # 2) <= gap)%Q).
Proof.
  intros X Y Sm gap. destruct (scaled_difference x y X Y) as (m & -> & W & R). fold gap in R.
  pose proof (denominator_bound x y m _ X Y W R) as DB.
  destruct m as [z|n d].
  - exists z. split; [reflexivity|]. rewrite <- R. unfold Qle. cbn. lia.
  - destruct W as [W1 W2]. specialize (DB n d eq_refl). destruct (Z.ltb_spec n 0).
    + rewrite rat_rounded_neg; [|split; auto|auto|unfold is_small; lia]. eexists. split; [reflexivity|].
      rewrite <- R. destruct (Qceiling_half_neg (rval (RFrac n d))) as [A B].
      { cbn [rval]. unfold Qle. cbn. lia. }
      split; [exact A|]. split; intros G; [lia|]. exfalso. cbn [rval] in G. unfold Qle in G. cbn in G.
      destruct d; lia.
    + rewrite rat_rounded_pos; [|split; auto|auto]. eexists. split; [reflexivity|].
      rewrite <- R. destruct (Qfloor_half_pos (rval (RFrac n d))) as [A B].
      { cbn [rval]. unfold Qle. cbn. lia. }
      split; [|exact A]. split; intros G; [lia|]. exfalso. cbn [rval] in G. unfold Qle in G. cbn in G.
      destruct d; lia.
Qed.

(** ** signs *)
Lemma zero_units x : 0 <= scale x -> sd_wf (sd_zero x) /\ units (sd_zero x) 0 /\ scale (sd_zero x) = scale x
  /\ (value (sd_zero x) == 0)%Q.
Proof.
  intros E. destruct (new_ok (RInt 0) (scale x) I E) as (A & B & C). split; [exact A|].
  split; [|split; [exact C|exact B]]. unfold units. fold (sd_zero x) in B. rewrite B. cbn [rval]. unfold Qeq. cbn. lia.
Qed.

Lemma rel_units rel x y m n : sd_wf x -> sd_wf y -> scale x = scale y -> units x m -> units y n ->
  sd_rel rel x y = Ok (rel (m - n) 0).
Proof. intros. unfold sd_rel. rewrite (compare_units x y m n) by auto. reflexivity. Qed.

Lemma units_sign x m : sd_wf x -> units x m -> (m < 0 <-> (value x < 0)%Q) /\ (0 < m <-> (0 < value x)%Q) /\ (m = 0 <-> (value x == 0)%Q).
Proof.
  intros [W E] U. assert (P : 0 < 10 ^ scale x) by (apply Z.pow_pos_nonneg; lia).
  unfold units in U. destruct (value x) as [n d]. unfold Qeq, Qlt, Qmult, inject_Z in *. cbn [Qnum Qden] in *.
  rewrite Pos.mul_1_r in U. nia.
Qed.

Lemma negated_exact x : sd_wf x -> exactly (sd_negated x) (- value x) (scale x).
Proof.
  intros X. destruct (zero_units x (proj2 X)) as (A & B & C & D).
  destruct (minus_exact (sd_zero x) x A X) as (z & E1 & E2 & E3 & E4). exists z.
  split; [exact E1|]. split; [auto|]. split; [rewrite E3, D; ring|]. rewrite E4, C. lia.
Qed.

Lemma abs_units x m : sd_wf x -> units x m ->
  exists z, sd_abs x = Ok z /\ (value z == Qabs (value x))%Q /\ scale z = scale x.
Proof.
  intros X U. destruct (zero_units x (proj2 X)) as (A & B & C & D). unfold sd_abs.
  rewrite (rel_units Z.gtb x (sd_zero x) m 0) by auto. cbn [obind]. rewrite Z.sub_0_r.
  destruct (units_sign x m X U) as (S1 & S2 & S3). destruct (Z.gtb_spec m 0).
  - exists x. split; [reflexivity|]. split; [|auto]. symmetry. apply Qabs_pos. apply Qlt_le_weak, S2. lia.
  - destruct (negated_exact x X) as (z & E1 & E2 & E3 & E4). exists z. split; [auto|]. split; [|auto].
    rewrite E3. symmetry. apply Qabs_neg. apply Qnot_lt_le. intros G. apply S2 in G. lia.
Qed.

Lemma coerce_ok x z : 0 <= scale x -> sd_wf (sd_coerce x z) /\ units (sd_coerce x z) (z * 10 ^ scale x)
  /\ scale (sd_coerce x z) = scale x.
Proof.
  intros E. destruct (new_ok (RInt z) (scale x) I E) as (A & B & C). split; [exact A|].
  split; [|exact C]. unfold units. fold (sd_coerce x z) in B. rewrite B.
  unfold sd_coerce. rewrite C. cbn [rval]. rewrite inject_Z_mult. reflexivity.
Qed.

Lemma floor_units x m : sd_wf x -> units x m -> sd_floor x = Ok (Qfloor (value x)).
Proof.
  intros X U. destruct (zero_units x (proj2 X)) as (A & B & C & D). unfold sd_floor.
  rewrite (rel_units Z.geb x (sd_zero x) m 0) by auto. cbn [obind]. rewrite Z.sub_0_r.
  destruct (units_sign x m X U) as (S1 & S2 & S3).
  assert (T : sd_truncated x = if Qle_bool 0 (value x) then Qfloor (value x) else Qceiling (value x))
    by (apply rat_truncated_ok, X).
  destruct (Z.geb_spec m 0) as [G|G].
  - rewrite T. replace (Qle_bool 0 (value x)) with true; [reflexivity|]. symmetry. apply Qle_bool_iff.
    apply Qnot_lt_le. intros H. apply S1 in H. lia.
  - replace (Qle_bool 0 (value x)) with false in T.
    2:{ symmetry. destruct (Qle_bool 0 (value x)) eqn:Q; auto. apply Qle_bool_iff in Q.
        exfalso. apply S1 in G. apply (Qlt_not_le _ _ G Q). }
    destruct (coerce_ok x (sd_truncated x) (proj2 X)) as (E1 & E2 & E3).
    unfold sd_eq. rewrite (rel_units Z.eqb x _ m _ X E1 (eq_sym E3) U E2). cbn [obind].
    assert (P : 0 < 10 ^ scale x) by (apply Z.pow_pos_nonneg; [lia|apply X]).
    rewrite T in *. clear T. unfold units in U.
    pose proof (Qle_ceiling (value x)) as C1. pose proof (Qceiling_lt (value x)) as C2.
    pose proof (Qfloor_le (value x)) as F1. pose proof (Qlt_floor (value x)) as F2.
    set (c := Qceiling (value x)) in *. set (f := Qfloor (value x)) in *.
    destruct (Z.eqb_spec (m - c * 10 ^ scale x) 0) as [Z0|Z0]; cbn [obind]; f_equal.
    + assert (V : (value x == inject_Z c)%Q).
      { assert (m = c * 10 ^ scale x) by lia. subst m. rewrite inject_Z_mult in U.
        apply Qmult_inj_r in U; auto. unfold Qeq. cbn. lia. }
      unfold f. rewrite V. symmetry. apply Qfloor_Z.
    + assert (NV : ~ (value x == inject_Z c)%Q).
      { intros V. apply Z0. rewrite V in U. rewrite <- inject_Z_mult in U. apply (proj2 (inject_Z_injective _ _)) in U || idtac.
        unfold Qeq in U. cbn in U. lia. }
      destruct (value x) as [n d]. unfold Qle, Qlt, Qeq, inject_Z in *. cbn [Qnum Qden] in *. nia.
Qed.

Lemma units_order x y m n : sd_wf x -> sd_wf y -> scale x = scale y -> units x m -> units y n ->
  (m - n < 0 <-> (value x < value y)%Q) /\ (m - n = 0 <-> (value x == value y)%Q).
Proof.
  intros [_ X] [_ Y] E U V. unfold units in *. rewrite <- E in V.
  assert (P : 0 < 10 ^ scale x) by (apply Z.pow_pos_nonneg; lia).
  assert (PQ : (0 < inject_Z (10 ^ scale x))%Q) by (unfold Qlt; cbn; lia).
  assert (NZ : ~ (inject_Z (10 ^ scale x) == 0)%Q) by (unfold Qeq; cbn; lia).
  split.
  - rewrite <- (Qmult_lt_r _ _ _ PQ), U, V. unfold Qlt. cbn. lia.
  - split; intros H.
    + apply (Qmult_inj_r _ _ _ NZ). rewrite U, V. replace m with n by lia. reflexivity.
    + apply (Qmult_inj_r _ _ _ NZ) in H. rewrite U, V in H. unfold Qeq in H. cbn in H. lia.
Qed.

Lemma comparison_units x y m n : sd_wf x -> sd_wf y -> scale x = scale y -> units x m -> units y n ->
  (exists b, sd_rel Z.eqb x y = Ok b /\ (b = true <-> (value x == value y)%Q))
  /\ (exists b, sd_rel Z.ltb x y = Ok b /\ (b = true <-> (value x < value y)%Q))
  /\ (exists b, sd_rel Z.leb x y = Ok b /\ (b = true <-> (value x <= value y)%Q))
  /\ (exists b, sd_rel Z.gtb x y = Ok b /\ (b = true <-> (value y < value x)%Q))
  /\ (exists b, sd_rel Z.geb x y = Ok b /\ (b = true <-> (value y <= value x)%Q)).
Proof.
  intros X Y E U V. destruct (units_order x y m n X Y E U V) as [L Q].
  destruct (units_order y x n m Y X (eq_sym E) V U) as [L' _].
  split; [|split; [|split; [|split]]]; (eexists; split; [rewrite (rel_units _ x y m n) by auto; reflexivity|]).
  - rewrite Z.eqb_eq. exact Q.
  - rewrite Z.ltb_lt. exact L.
  - rewrite Z.leb_le. split; intros H.
    + apply Qnot_lt_le. intros G. apply L' in G. lia.
    + destruct (Z.le_gt_cases (m - n) 0); auto. exfalso. apply (Qle_not_lt _ _ H). apply L'. lia.
  - rewrite Z.gtb_lt, <- L'. lia.
  - rewrite Z.geb_le. split; intros H.
    + apply Qnot_lt_le. intros G. apply L in G. lia.
    + destruct (Z.le_gt_cases 0 (m - n)); auto. exfalso. apply (Qle_not_lt _ _ H). apply L. lia.
Qed.

Lemma negative_units x m : sd_wf x -> units x m -> exists b, sd_negative x = Ok b /\ (b = true <-> (value x < 0)%Q).
Proof.
  intros X U. destruct (zero_units x (proj2 X)) as (A & B & C & D). unfold sd_negative.
  rewrite (rel_units Z.ltb x (sd_zero x) m 0 X A (eq_sym C) U B). eexists. split; [reflexivity|].
  rewrite Z.ltb_lt, Z.sub_0_r. apply (units_sign x m X U).
Qed.
