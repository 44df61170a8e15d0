(** Printing and reading ScaledDecimals. *)
From Coq Require Import ZArith QArith Qround Qabs List Lia ZifyBool.
From Verif Require Import Base IntMath IntRep SmallInt Lex LexSpec LexProofs IntPrint IntPrintSpec IntPrintProofs
  Fraction FractionSpec FractionProofs FractionOrder ScaledD ScaledDSpec ScaledDProofs.
Import ListNotations.
Open Scope Z_scope.

Notation dig := (fun d => 0 <= d < 10).

Lemma pos_value_from b l v : fold_left (fun acc d => acc * b + d) l v = v * b ^ Z.of_nat (length l) + pos_value b l.
Proof.
  unfold pos_value. revert v. induction l as [|d l IH]; intros v; cbn [fold_left length]; [cbn; lia|].
  rewrite IH. rewrite (IH (0 * b + d)). rewrite Nat2Z.inj_succ, Z.pow_succ_r by lia. ring.
Qed.
Lemma pos_value_app2 b l k : pos_value b (l ++ k) = pos_value b l * b ^ Z.of_nat (length k) + pos_value b k.
Proof. unfold pos_value at 1. rewrite fold_left_app. apply pos_value_from. Qed.

(** ** digits *)
Definition is_ratio (r : rat) (u d : Z) : Prop := wf r /\ (rval r == u # Z.to_pos d)%Q.

Lemma ratio_truncated r u d : 0 < d -> 0 <= u -> is_ratio r u d -> rat_truncated r = u / d.
Proof.
  intros D U [W E]. rewrite rat_truncated_ok by auto.
  assert (L : (0 <= rval r)%Q). { rewrite E. unfold Qle. cbn. lia. }
  apply Qle_bool_iff in L. rewrite L, E. unfold Qfloor. rewrite Z2Pos.id by auto. reflexivity.
Qed.

Lemma ratio_part r u d : 0 < d -> 0 <= u -> is_ratio r u d ->
  exists f, rat_fraction_part r = Ok f /\ is_ratio f (u mod d) d.
Proof.
  intros D U R. pose proof (ratio_truncated r u d D U R) as T. destruct R as [W E].
  pose proof (Z.div_mod u d ltac:(lia)) as DM.
  destruct r as [z|n e].
  - exists (RInt 0). split; [reflexivity|]. split; [exact I|]. cbn [rat_truncated] in T.
    cbn [rval] in *. unfold Qeq in *. cbn in *. rewrite ?Z2Pos.id in * by auto. subst z.
    destruct d; try lia.
  - cbn [rat_fraction_part]. rewrite T.
    destruct (rat_minus_spec (RFrac n e) (RFrac (u / d) 1) W) as (f & -> & F1 & F2).
    { split; [lia|apply Z.gcd_1_r]. }
    exists f. split; [reflexivity|]. split; [auto|]. rewrite F2, E. cbn [rval].
    destruct d as [|p|]; try lia. unfold Qeq. cbn -[Z.mul Z.add Z.div Z.modulo Pos.mul].
    rewrite !Pos2Z.inj_mul. change (Z.pos 1) with 1. set (t := u / Z.pos p) in *. nia.
Qed.

Lemma digits_ok d : 0 < d -> forall k r u, 0 <= u < d -> is_ratio r u d ->
  exists ds, sd_digits k r = Ok (map ascii_digit ds) /\ Forall dig ds /\ length ds = k
  /\ pos_value 10 ds = u * 10 ^ Z.of_nat k / d.
Proof.
  intros D. induction k as [|k IH]; intros r u U R.
  - exists []. cbn. split; [auto|]. split; [auto|]. split; [auto|]. rewrite Z.mul_1_r, Z.div_small; auto.
  - destruct R as [W E]. cbn [sd_digits].
    destruct (rat_times_ok false r (RInt 10) W I ltac:(discriminate)) as (q & -> & Q1 & Q2). cbn [obind].
    assert (RQ : is_ratio q (10 * u) d).
    { split; [auto|]. rewrite Q2, E. cbn [rval]. unfold Qeq. cbn -[Z.mul Pos.mul]. rewrite Pos2Z.inj_mul. ring. }
    destruct (ratio_part q (10 * u) d D ltac:(lia) RQ) as (f & -> & F). cbn [obind].
    pose proof (Z.mod_pos_bound (10 * u) d D) as MB.
    destruct (IH f (10 * u mod d) MB F) as (ds & -> & A & B & C). cbn [obind].
    rewrite (ratio_truncated q (10 * u) d D ltac:(lia) RQ).
    exists (10 * u / d :: ds). split; [reflexivity|].
    assert (TB : 0 <= 10 * u / d < 10). { split; [apply Z.div_pos; lia|apply Z.div_lt_upper_bound; lia]. }
    split; [constructor; auto|]. split; [cbn; lia|].
    change (10 * u / d :: ds) with ([10 * u / d] ++ ds). rewrite pos_value_app2, C, B.
    replace (pos_value 10 [10 * u / d]) with (10 * u / d) by (unfold pos_value; cbn [fold_left]; lia).
    rewrite Nat2Z.inj_succ, Z.pow_succ_r by lia.
    replace (u * (10 * 10 ^ Z.of_nat k)) with (10 * u * 10 ^ Z.of_nat k) by ring.
    pose proof (Z.div_mod (10 * u) d ltac:(lia)) as DM.
    rewrite DM at 3. rewrite Z.mul_add_distr_r.
    replace (d * (10 * u / d) * 10 ^ Z.of_nat k) with (10 * u / d * 10 ^ Z.of_nat k * d) by ring.
    rewrite Z.div_add_l by lia. reflexivity.
Qed.

Lemma abs_ratio n d : wf (RFrac n d) -> exists a, frac_abs n d = Ok a /\ is_ratio a (Z.abs n) d.
Proof.
  intros W. pose proof W as [D G]. unfold frac_abs.
  pose proof (compare_sgn n d 0 1 D ltac:(lia)) as C. rewrite Z.mul_1_r in C. cbn [Z.mul] in C. rewrite Z.sub_0_r in C.
  destruct (Z.gtb_spec (Fraction.compare n d 0 1) 0).
  - exists (RFrac n d). split; [reflexivity|]. split; [auto|].
    replace (Z.abs n) with n by (destruct n, (Fraction.compare _ d 0 1); cbn in *; lia). reflexivity.
  - destruct (rat_negated_ok (RFrac n d) W) as (a & -> & A & B). exists a. split; [reflexivity|].
    split; [auto|]. rewrite B. cbn [rval].
    replace (Z.abs n) with (- n) by (destruct n, (Fraction.compare _ d 0 1); cbn in *; lia). reflexivity.
Qed.

(** the number of units of the last digit, towards zero *)
Definition shown (x : sd) : Z := Z.abs (ScaledD.num x) * 10 ^ scale x / den x.

Lemma display_ok x : sd_wf x -> exists neg w, sd_display x = Ok w /\ decimal_notation neg (shown x) (scale x) w
  /\ (forall m, units x m -> neg = (m <? 0)).
Proof.
  intros X. pose proof X as [[D G] Sc]. unfold sd_display.
  destruct (coerce_ok x 0 Sc) as (C1 & C2 & C3).
  destruct (minus_exact x (sd_coerce x 0) X C1) as (dl & -> & L1 & L2 & L3). cbn [obind].
  rewrite C3, Z.max_id in L3.
  assert (VD : (value dl == value x)%Q).
  { rewrite L2. replace (value (sd_coerce x 0)) with (0 # 1)%Q by reflexivity. ring. }
  destruct (zero_units dl (proj2 L1)) as (Z1 & Z2 & Z3 & Z4).
  assert (exists neg, sd_negative dl = Ok neg) as [neg EN].
  { unfold sd_negative, sd_rel. destruct (scaled_difference dl (sd_zero dl) L1 Z1) as (m & -> & M1 & _).
    destruct m as [z|n d]; [cbn; eauto|]. destruct M1 as [M1 M2]. unfold rat_rounded. rewrite half_is. cbn [obind].
    destruct (n <? 0).
    - destruct (rat_minus_spec (RFrac n d) (RFrac 1 2)) as (q & -> & _); [split; auto|split; [lia|reflexivity]|]. cbn. eauto.
    - destruct (rat_plus_spec (RFrac n d) (RFrac 1 2)) as (q & -> & _); [split; auto|split; [lia|reflexivity]|]. cbn. eauto. }
  rewrite EN. cbn [obind].
  destruct (abs_ratio (ScaledD.num x) (den x)) as (a & -> & A); [split; auto|]. cbn [obind].
  rewrite (ratio_truncated a _ _ D (Z.abs_nonneg (ScaledD.num x)) A).
  set (N := Z.abs (ScaledD.num x)) in *. assert (N0 : 0 <= N) by (unfold N; lia).
  destruct (print_ok (N / den x) 10 ltac:(lia)) as (l & NL & ->). cbn [obind].
  assert (I0 : 0 <= N / den x) by (apply Z.div_pos; lia).
  replace (N / den x <? 0) with false by lia. cbn [app].
  apply Num_numeral in NL; [|lia]. rewrite Z.abs_eq in NL by auto.
  assert (SG : forall m, units x m -> neg = (m <? 0)).
  { intros m U. assert (UD : units dl m) by (unfold units in *; rewrite VD, L3; auto).
    unfold sd_negative in EN. rewrite (rel_units Z.ltb dl (sd_zero dl) m 0 L1 Z1 (eq_sym Z3) UD Z2) in EN.
    injection EN as <-. rewrite Z.sub_0_r. reflexivity. }
  assert (P : 0 < 10 ^ scale x) by (apply Z.pow_pos_nonneg; lia).
  assert (EQ : shown x = N / den x * 10 ^ scale x + (N mod den x) * 10 ^ scale x / den x).
  { unfold shown. fold N. pose proof (Z.div_mod N (den x) ltac:(lia)) as DM. rewrite DM at 1. rewrite Z.mul_add_distr_r.
    replace (den x * (N / den x) * 10 ^ scale x) with (N / den x * 10 ^ scale x * den x) by ring.
    rewrite Z.div_add_l by lia. reflexivity. }
  pose proof (Z.mod_pos_bound N (den x) D) as MB.
  assert (RB : 0 <= (N mod den x) * 10 ^ scale x / den x < 10 ^ scale x).
  { split; [apply Z.div_pos; nia|apply Z.div_lt_upper_bound; nia]. }
  assert (DQ : shown x / 10 ^ scale x = N / den x).
  { rewrite EQ. rewrite Z.div_add_l by lia. rewrite (Z.div_small _ _ RB). lia. }
  assert (DR : shown x mod 10 ^ scale x = (N mod den x) * 10 ^ scale x / den x).
  { rewrite EQ. rewrite Z.add_comm, Z.mod_add by lia. apply Z.mod_small, RB. }
  destruct (Z.eqb_spec (scale x) 0) as [S0|S0].
  - exists neg. eexists. split; [reflexivity|]. split; [|exact SG].
    exists l, []. rewrite DQ. split; [auto|]. split; [auto|]. split; [cbn; lia|].
    split; [rewrite S0, Z.mod_1_r; reflexivity|]. rewrite S0. cbn [Z.eqb]. rewrite app_nil_r. reflexivity.
  - destruct (ratio_part a N (den x) D N0 A) as (f & -> & F). cbn [obind].
    destruct (digits_ok (den x) D (Z.to_nat (scale x)) f (N mod den x) MB F) as (ds & -> & D1 & D2 & D3). cbn [obind].
    exists neg. eexists. split; [reflexivity|]. split; [|exact SG].
    exists l, ds. rewrite DQ, DR. split; [auto|]. split; [auto|]. split; [lia|].
    split; [rewrite D3, Z2Nat.id by lia; reflexivity|].
    apply Z.eqb_neq in S0. rewrite S0. reflexivity.
Qed.

(** ** reading *)
Lemma plain_digits ds : Forall dig ds -> digit_text 10 ds (map ascii_digit ds).
Proof. induction 1; cbn; constructor; auto. Qed.

Lemma pow_den k : 0 <= k -> exists p, (if k =? 0 then Ok (RInt 1) else frac_power 1 10 k) = Ok p /\ wf p
  /\ (rval p * inject_Z (10 ^ k) == 1)%Q.
Proof.
  intros K. assert (P : 0 < 10 ^ k) by (apply Z.pow_pos_nonneg; lia). destruct (Z.eqb_spec k 0) as [->|NE].
  - exists (RInt 1). split; [reflexivity|]. split; [exact I|]. reflexivity.
  - unfold frac_power, mk_frac. destruct (Z.eqb_spec (10 ^ k) 0); [lia|]. destruct (Z.ltb_spec (10 ^ k) 0); [lia|].
    eexists. split; [reflexivity|]. rewrite Z.pow_1_l by lia. split; [split; [auto|apply Z.gcd_1_l]|].
    cbn [rval]. unfold Qeq. cbn. rewrite Pos.mul_1_r, Z2Pos.id by auto. destruct (10 ^ k); lia.
Qed.

Lemma literal_ok n k s : 0 <= k -> 0 <= s -> exists x, scaled_literal n k s = Ok x /\ sd_wf x
  /\ (value x * inject_Z (10 ^ k) == inject_Z n)%Q /\ scale x = s.
Proof.
  intros K Hs. unfold scaled_literal. destruct (pow_den k K) as (p & -> & P1 & P2). cbn [obind].
  destruct (rat_times_ok false (RFrac n 1) p ltac:(split; [lia|apply Z.gcd_1_r]) P1 ltac:(discriminate)) as (r & -> & R1 & R2).
  cbn [obind]. destruct (new_ok r s R1 Hs) as (A & B & C). eexists. split; [reflexivity|].
  split; [auto|]. split; [|auto]. rewrite B, R2. rewrite <- Qmult_assoc, P2. cbn [rval]. unfold Qeq. cbn. lia.
Qed.

Lemma number_ok r ds : Forall dig ds -> ds <> [] -> sc_int r = pos_value 10 ds mod 2 ^ 64 ->
  sc_large r = (big_bound false <? pos_value 10 ds) -> sc_digits r = ds ->
  (if sc_large r then olet o := scan_large_integer false 10 (sc_digits r) in Ok (st_val o)
   else Ok (to_int (from_int (wrap64 (sc_int r))))) = Ok (pos_value 10 ds).
Proof.
  intros F NE E1 E2 E3.
  destruct (finish_ok false 10 ds (map ascii_digit ds) r [] ltac:(lia) (plain_digits ds F) NE I E1 E2 E3) as (t & T1 & T2).
  unfold finish_number in T1. cbn [num_done] in T2. pose proof (pos_value_bound 10 ds ltac:(lia) F) as PB.
  assert (BB : big_bound false = 2 ^ 62 - 1) by reflexivity.
  destruct (sc_large r) eqn:L.
  - destruct (scan_large_integer false 10 (sc_digits r)) as [o| | | |]; try discriminate T1. cbn [obind] in *.
    injection T1 as <-. f_equal. destruct T2 as [[_ [=]]|(_ & l & [= ->] & _ & V)]. exact V.
  - injection T1 as <-. destruct T2 as [[T2 [= T3]]|(T2 & _)]; [|lia].
    rewrite T3. f_equal. apply tag_roundtrip. lia.
Qed.

Lemma scan_ok whole part sc n m rest : Forall dig whole -> whole <> [] -> Forall dig part -> Forall dig sc -> sc <> [] ->
  n = pos_value 10 sc -> n < 2 ^ 31 -> m = pos_value 10 (whole ++ part) -> after_literal rest ->
  exists x, scan_scaled (map ascii_digit whole ++ (match part with [] => [] | _ => 46 :: map ascii_digit part end)
              ++ 115 :: map ascii_digit sc ++ rest) = Ok (x, rest)
  /\ sd_wf x /\ (value x * inject_Z (10 ^ Z.of_nat (length part)) == inject_Z m)%Q /\ scale x = n.
Proof.
  intros W WN P Q QN En Bn Em AL. unfold scan_scaled.
  set (tl := 115 :: map ascii_digit sc ++ rest).
  destruct (scan_digits_ok false 10 whole (map ascii_digit whole)
     ((match part with [] => [] | _ => 46 :: map ascii_digit part end) ++ tl) ltac:(lia) (plain_digits _ W) WN) as (r & -> & R1 & R2 & R3).
  { destruct part; cbn; split; try lia; reflexivity. }
  cbn [obind].
  assert (STEP : exists q k, (match (match part with [] => [] | _ => 46 :: map ascii_digit part end) ++ tl with
    | c :: d :: t =>
      if (c =? 46) && is_base_digit d 10 then
        let '(q, u) := scan_loop false 10 (d :: t) r in
        (q, Z.of_nat (length (sc_digits q)) - Z.of_nat (length (sc_digits r)), u)
      else (r, 0, (match part with [] => [] | _ => 46 :: map ascii_digit part end) ++ tl)
    | _ => (r, 0, (match part with [] => [] | _ => 46 :: map ascii_digit part end) ++ tl)
    end) = (q, k, tl) /\ k = Z.of_nat (length part) /\ sc_int q = m mod 2 ^ 64 /\ sc_large q = (big_bound false <? m)
      /\ sc_digits q = whole ++ part).
  { destruct part as [|d0 part0].
    - cbn [app]. unfold tl at 1. cbn [app]. exists r, 0. rewrite app_nil_r in *. subst m.
      split; [|split; [reflexivity|split; [auto|split; auto]]].
      destruct sc as [|a sc']; [easy|]. cbn [map app]. change (115 =? 46) with false. cbn [andb]. reflexivity.
    - cbn [map app]. pose proof (Forall_inv P) as D0. cbv beta in D0.
      destruct (base_digit_ascii 10 d0 ltac:(lia) D0) as (E1 & E2 & E3). rewrite E1. change (46 =? 46) with true. cbn [andb].
      destruct (scan_loop_ok false 10 ltac:(lia) (d0 :: part0) (map ascii_digit (d0 :: part0)) (plain_digits _ P)
        r (pos_value 10 whole) tl) as (q & F1 & [F2 F3] & F4 & _).
      { pose proof (pos_value_bound 10 whole ltac:(lia) W). lia. }
      { split; auto. }
      { unfold tl. cbn. split; [lia|reflexivity]. }
      cbn [map app] in F1. rewrite F1. exists q. eexists. split; [reflexivity|].
      rewrite F4, R3. rewrite app_length. split; [lia|].
      rewrite pos_value_from in F2, F3. rewrite <- pos_value_app2 in F2, F3. rewrite Em. auto. }
  destruct STEP as (q & k & -> & -> & Q1 & Q2 & Q3). unfold tl. change (115 =? 115) with true. cbv iota.
  assert (exists d t, map ascii_digit sc ++ rest = d :: t /\ is_dec d = true) as (d & t & ED & DD).
  { destruct sc as [|a sc']; [easy|]. pose proof (Forall_inv Q) as A0. cbv beta in A0. cbn [map app]. eexists _, _. split; [reflexivity|].
    unfold is_dec, ascii_digit. destruct (Z.ltb_spec a 10); lia. }
  rewrite ED. cbv iota. rewrite DD. rewrite <- ED.
  destruct (scan_digits_ok false 10 sc (map ascii_digit sc) rest ltac:(lia) (plain_digits _ Q) QN) as (e & -> & S1 & S2 & S3).
  { apply after_stop, after_any, AL. }
  cbn [obind].
  rewrite (number_ok q (whole ++ part)); auto.
  2:{ apply Forall_app; auto. } 2:{ destruct whole; [easy|discriminate]. }
  2:{ rewrite <- Em. auto. } 2:{ rewrite <- Em. auto. }
  cbn [obind]. pose proof (pos_value_bound 10 sc ltac:(lia) Q) as SB.
  rewrite S1, <- En. rewrite Z.mod_small by lia.
  replace (wrap32 n) with n by (unfold wrap32; rewrite Z.mod_small by lia; lia).
  rewrite <- Em. destruct (literal_ok m (Z.of_nat (length part)) n ltac:(lia) ltac:(lia)) as (x & -> & X1 & X2 & X3).
  cbn [obind]. exists x. split; [reflexivity|]. auto.
Qed.

Lemma shown_units x m : sd_wf x -> units x m -> shown x = Z.abs m.
Proof.
  intros [[D G] Sc] U. unfold shown, units, value, fraction in *. cbn [rval] in U.
  assert (P : 0 < 10 ^ scale x) by (apply Z.pow_pos_nonneg; lia).
  unfold Qeq in U. cbn [Qmult Qnum Qden inject_Z] in U. rewrite Pos.mul_1_r, Z2Pos.id in U by auto.
  replace (Z.abs (ScaledD.num x) * 10 ^ scale x) with (Z.abs m * den x) by nia.
  apply Z.div_mul. lia.
Qed.

Lemma round_trip x m rest : sd_wf x -> units x m -> scale x < 2 ^ 31 -> after_literal rest ->
  exists w y, sd_print x = Ok w /\ read_scaled (w ++ rest) = Ok (y, rest) /\ (value y == value x)%Q /\ scale y = scale x.
Proof.
  intros X U Sb AL. pose proof X as [XW Sc]. unfold sd_print.
  destruct (display_ok x X) as (neg & w & -> & (whole & part & N1 & N2 & N3 & N4 & ->) & NG). cbn [obind].
  rewrite (shown_units x m X U) in *. specialize (NG m U). subst neg.
  destruct (print_ok (scale x) 10 ltac:(lia)) as (sc & Q & ->). cbn [obind].
  replace (scale x <? 0) with false by lia. cbn [app]. apply Num_numeral in Q; [|lia]. rewrite Z.abs_eq in Q by lia.
  destruct Q as (Q1 & Q2 & Q3). destruct N1 as (W1 & W2 & W3).
  assert (P : 0 < 10 ^ scale x) by (apply Z.pow_pos_nonneg; lia).
  assert (EM : Z.abs m = pos_value 10 (whole ++ part)).
  { rewrite pos_value_app2, N3, W2, N4. pose proof (Z.div_mod (Z.abs m) (10 ^ scale x) ltac:(lia)). lia. }
  destruct (scan_ok whole part sc (scale x) (Z.abs m) rest) as (y & SY & Y1 & Y2 & Y3); auto.
  { destruct whole; [easy|discriminate]. } { destruct sc; [easy|discriminate]. }
  assert (TX : (if scale x =? 0 then [] else 46 :: map ascii_digit part) =
               match part with [] => [] | _ => 46 :: map ascii_digit part end).
  { destruct part; cbn [length] in N3; destruct (Z.eqb_spec (scale x) 0); try lia; reflexivity. }
  rewrite TX. rewrite N3 in Y2.
  assert (UY : units y (Z.abs m)) by (unfold units; rewrite Y3; exact Y2).
  assert (NZ : ~ (inject_Z (10 ^ scale x) == 0)%Q) by (unfold Qeq; cbn; lia).
  unfold units in U. destruct (Z.ltb_spec m 0) as [L|L].
  - destruct (negated_exact y Y1) as (z & E1 & E2 & E3 & E4).
    eexists. exists z. split; [reflexivity|]. rewrite <- !app_assoc. cbn [app read_scaled]. change (45 =? 45) with true. cbv iota.
    rewrite <- !app_assoc in SY || idtac. cbn [app] in *. rewrite SY. cbn [obind].
    destruct (zero_units y (proj2 Y1)) as (Z1 & Z2 & Z3 & Z4). unfold sd_negative.
    rewrite (rel_units Z.ltb y (sd_zero y) (Z.abs m) 0 Y1 Z1 (eq_sym Z3) UY Z2). cbn [obind].
    rewrite Z.sub_0_r. replace (Z.abs m <? 0) with false by lia. rewrite E1. cbn [obind].
    split; [reflexivity|]. split; [|congruence]. rewrite E3.
    apply (Qmult_inj_r _ _ _ NZ). rewrite U. setoid_replace (- value y * inject_Z (10 ^ scale x))%Q with (- (value y * inject_Z (10 ^ scale x)))%Q by ring.
    rewrite Y2. rewrite <- inject_Z_opp. replace (- Z.abs m) with m by lia. reflexivity.
  - eexists. exists y. split; [reflexivity|]. rewrite <- !app_assoc. cbn [app].
    assert (H45 : exists c t, map ascii_digit whole ++ match part with [] => [] | _ => 46 :: map ascii_digit part end ++ 115 :: map ascii_digit sc ++ rest = c :: t /\ c <> 45).
    { destruct whole as [|a whole']; [easy|]. pose proof (Forall_inv W1) as A0. cbv beta in A0. cbn [map app]. eexists _, _. split; [reflexivity|].
      unfold ascii_digit. destruct (Z.ltb_spec a 10); lia. }
    destruct H45 as (c & t & EC & NC). rewrite EC in *. unfold read_scaled. destruct (Z.eqb_spec c 45); [easy|].
    rewrite SY. split; [reflexivity|]. split; [|auto].
    apply (Qmult_inj_r _ _ _ NZ). rewrite U, Y2. replace (Z.abs m) with m by lia. reflexivity.
Qed.
