(** Comparison and rounding of rational numbers. *)
From Coq Require Import Znumtheory Qround Lqa.
From Verif Require Import Base IntMath IntMathProofs Fraction FractionSpec FractionProofs.

Lemma high_bit_pos z : 0 < z -> high_bit z = Z.log2 z + 1.
Proof. intros P. unfold high_bit. destruct (z =? 0) eqn:?; [lia|reflexivity]. Qed.

Lemma high_bits_lt a b c d : 0 < a -> 0 < b -> 0 < c -> 0 < d ->
  high_bit a + high_bit b - high_bit c - high_bit d < -1 -> a * b < c * d.
Proof.
  intros A B C D. rewrite !high_bit_pos by assumption. intros H.
  pose proof (Z.log2_spec a A). pose proof (Z.log2_spec b B). pose proof (Z.log2_spec c C). pose proof (Z.log2_spec d D).
  pose proof (Z.log2_nonneg a). pose proof (Z.log2_nonneg b). pose proof (Z.log2_nonneg c). pose proof (Z.log2_nonneg d).
  assert (K1 : a * b < 2 ^ (Z.succ (Z.log2 a) + Z.succ (Z.log2 b))).
  { rewrite Z.pow_add_r by lia. apply Z.mul_lt_mono_nonneg; lia. }
  assert (K2 : 2 ^ (Z.log2 c + Z.log2 d) <= c * d).
  { rewrite Z.pow_add_r by lia. apply Z.mul_le_mono_nonneg; try lia; apply Z.pow_nonneg; lia. }
  assert (K3 : 2 ^ (Z.succ (Z.log2 a) + Z.succ (Z.log2 b)) <= 2 ^ (Z.log2 c + Z.log2 d)) by (apply Z.pow_le_mono_r; lia).
  lia.
Qed.

Lemma compare_sgn n1 d1 n2 d2 : 0 < d1 -> 0 < d2 -> Z.sgn (compare n1 d1 n2 d2) = Z.sgn (n1 * d2 - n2 * d1).
Proof.
  intros D1 D2. unfold compare.
  destruct (Z.sgn n1 =? Z.sgn n2) eqn:E; cbn [negb].
  2:{ destruct n1 as [|p|p], n2 as [|q|q]; cbn in E; try discriminate; cbn [Z.sgn];
      destruct d1; try lia; destruct d2; lia. }
  set (delta := high_bit (Z.abs n1) + high_bit d2 - high_bit (Z.abs n2) - high_bit d1).
  assert (F : Z.sgn (d2 * n1 - d1 * n2) = Z.sgn (n1 * d2 - n2 * d1)) by (f_equal; ring).
  assert (G : Z.sgn (Z.sgn (d2 * n1 - d1 * n2)) = Z.sgn (n1 * d2 - n2 * d1)) by (rewrite Z.sgn_sgn; exact F).
  assert (L : n1 <> 0 -> delta < -1 -> Z.abs n1 * d2 < Z.abs n2 * d1).
  { intros N H. apply high_bits_lt; lia. }
  assert (R : n1 <> 0 -> delta > 1 -> Z.abs n2 * d1 < Z.abs n1 * d2).
  { intros N H. apply high_bits_lt; lia. }
  clearbody delta.
  destruct (delta <? -1) eqn:H1; [|destruct (delta >? 1) eqn:H2; [|exact G]];
    destruct n1 as [|p|p], n2 as [|q|q]; cbn in E; try discriminate; cbn [Z.sgn Z.abs] in *; clear G F E;
    rewrite ?Z.mul_0_r, ?Z.mul_0_l; try reflexivity.
  - specialize (L ltac:(lia) ltac:(lia)). clear R.  rewrite !(Z.sgn_neg); lia.
  - specialize (L ltac:(lia) ltac:(lia)). clear R. rewrite !(Z.sgn_pos); lia.
  - specialize (R ltac:(lia) ltac:(lia)). clear L. rewrite !(Z.sgn_pos); lia.
  - specialize (R ltac:(lia) ltac:(lia)). clear L. rewrite !(Z.sgn_neg); lia.
Qed.

(** A comparison with zero looks at the sign only, and a comparison of two numbers at
    their difference. *)
Definition signed (rel : Z -> Z -> bool) := forall x y z, Z.sgn z = Z.sgn (x - y) -> rel z 0 = rel x y.

Lemma ltb_signed : signed Z.ltb. Proof. intros x y z H. destruct z; lia. Qed.
Lemma leb_signed : signed Z.leb. Proof. intros x y z H. destruct z; lia. Qed.
Lemma gtb_signed : signed Z.gtb. Proof. intros x y z H. destruct z; lia. Qed.
Lemma geb_signed : signed Z.geb. Proof. intros x y z H. destruct z; lia. Qed.

Lemma rat_rel_ok rel a b : signed rel -> wf a -> wf b ->
  rat_rel rel a b = Ok (rel (Qnum (rval a) * QDen (rval b)) (Qnum (rval b) * QDen (rval a))).
Proof.
  intros SG A B.
  assert (M : forall x y, wf x -> wf y ->
    (olet delta := rat_plus (-1) x y in
     match delta with RInt z => Ok (rel z 0) | RFrac n d => Ok (rel (compare n d 0 1) 0) end)
    = Ok (rel (Qnum (rval x) * QDen (rval y)) (Qnum (rval y) * QDen (rval x)))).
  { intros x y X Y. destruct (rat_plus_ok (-1) x y X Y ltac:(auto)) as (r & R1 & R2 & R3). rewrite R1. cbn [obind].
    assert (E : Z.sgn (Qnum (rval r)) = Z.sgn (Qnum (rval x) * QDen (rval y) - Qnum (rval y) * QDen (rval x))).
    { clear - R3. destruct (rval x) as [n1 p1], (rval y) as [n2 p2], (rval r) as [n p]. unfold Qeq, sq, inject_Z in R3.
      cbn -[Z.mul Z.add Pos.mul] in R3 |- *.
      replace (n1 * Z.pos (1 * p2) + -1 * n2 * Z.pos p1) with (n1 * Z.pos p2 - n2 * Z.pos p1) in R3 by (rewrite Pos.mul_1_l; ring).
      set (m := n1 * Z.pos p2 - n2 * Z.pos p1) in *. clearbody m.
      apply (f_equal Z.sgn) in R3. rewrite !Z.sgn_mul in R3. cbn [Z.sgn] in R3. lia. }
    destruct r as [z|n d].
    - f_equal. apply SG. exact E.
    - f_equal. apply SG. destruct R2 as [D G]. rewrite compare_sgn by lia.
      rewrite <- E. cbn [rval Qnum]. f_equal. ring. }
  destruct a as [x|n1 d1], b as [y|n2 d2].
  - cbn [rat_rel rval inject_Z Qnum Qden]. rewrite !Z.mul_1_r. reflexivity.
  - apply M; assumption.
  - apply M; assumption.
  - destruct A as [A1 A2], B as [B1 B2]. cbn [rat_rel rval Qnum Qden]. f_equal. rewrite !Z2Pos.id by assumption. apply SG.
    apply compare_sgn; assumption.
Qed.

Lemma lowest_terms_unique n1 d1 n2 d2 : 0 < d1 -> 0 < d2 -> Z.gcd n1 d1 = 1 -> Z.gcd n2 d2 = 1 ->
  n1 * d2 = n2 * d1 -> n1 = n2 /\ d1 = d2.
Proof.
  intros D1 D2 G1 G2 E.
  assert (K1 : (d1 | d2)). { apply Z.gauss with n1; [exists n2; lia|]. rewrite Z.gcd_comm. assumption. }
  assert (K2 : (d2 | d1)). { apply Z.gauss with n2; [exists n1; lia|]. rewrite Z.gcd_comm. assumption. }
  assert (d1 = d2) by (apply Z.divide_antisym_nonneg; lia || assumption). subst. split; [|reflexivity].
  apply Z.mul_reg_r with d2; lia.
Qed.

Lemma rat_eq_ok a b : wf a -> wf b -> rat_eq a b = true <-> (rval a == rval b)%Q.
Proof.
  intros A B. pose proof (as_frac_wf a A) as [A1 A2]. pose proof (as_frac_wf b B) as [B1 B2].
  assert (E : rat_eq a b = (fst (as_frac a) =? fst (as_frac b)) && (snd (as_frac a) =? snd (as_frac b))).
  { destruct a, b; cbn; rewrite ?andb_true_r; reflexivity. }
  rewrite E, (rval_as_frac a A), (rval_as_frac b B). unfold Qeq. cbn [Qnum Qden]. rewrite !Z2Pos.id by assumption. clear E.
  destruct (as_frac a) as [n1 d1], (as_frac b) as [n2 d2]. cbn [fst snd] in *. split.
  - intros H. apply andb_prop in H as [H1 H2]. apply Z.eqb_eq in H1, H2. subst. ring.
  - intros H. destruct (lowest_terms_unique n1 d1 n2 d2) as [-> ->]; try assumption. rewrite !Z.eqb_refl. reflexivity.
Qed.

(** ** Rounding *)
Lemma st_fdiv_lowest n d : 0 < d -> Z.gcd n d = 1 -> st_fdiv n d = n / d.
Proof.
  intros D G. unfold st_fdiv. destruct (is_small d) eqn:K; cbn [negb andb]; [lia|].
  destruct (n <? 0); cbn [andb]; [|lia]. destruct (Z.rem n d =? 0) eqn:R; [|lia]. exfalso.
  apply Z.eqb_eq in R. apply Z.rem_divide in R; [|lia]. apply Z.divide_gcd_iff in R; [|lia].
  rewrite Z.gcd_comm in R. assert (d = 1) by lia. subst. vm_compute in K. discriminate.
Qed.

Lemma rat_floor_ok a : wf a -> rat_floor a = Qfloor (rval a).
Proof.
  destruct a as [z|n d]; cbn [rat_floor rval].
  - intros _. cbn. rewrite Z.div_1_r. reflexivity.
  - intros [D G]. rewrite st_fdiv_lowest by assumption. cbn [Qfloor]. rewrite Z2Pos.id by assumption. reflexivity.
Qed.

Lemma ceil_div n d : 0 < d -> - ((- n) / d) = (n + d - 1) / d.
Proof.
  intros D. assert (H : (n + d - 1) / d - 1 < - ((- n) / d) <= (n + d - 1) / d).
  { pose proof (Z.div_mod (-n) d ltac:(lia)). pose proof (Z.mod_pos_bound (-n) d D).
    pose proof (Z.div_mod (n + d - 1) d ltac:(lia)). pose proof (Z.mod_pos_bound (n+d-1) d D). nia. }
  lia.
Qed.

Lemma rat_ceiling_ok a : wf a -> (forall n d, a = RFrac n d -> is_small d = true) -> rat_ceiling a = Qceiling (rval a).
Proof.
  destruct a as [z|n d]; cbn [rat_ceiling rval]; unfold Qceiling.
  - intros _ _. cbn. rewrite Z.div_1_r. lia.
  - intros [D G] K. unfold st_fdiv. rewrite (K n d eq_refl). cbn [negb andb Qopp Qfloor Qnum Qden].
    rewrite Z2Pos.id by assumption. rewrite ceil_div by assumption. lia.
Qed.

Lemma rat_truncated_ok a : wf a -> rat_truncated a = if Qle_bool 0 (rval a) then Qfloor (rval a) else Qceiling (rval a).
Proof.
  destruct a as [z|n d]; cbn [rat_truncated rval]; unfold Qle_bool, Qceiling; cbn [Qnum Qden inject_Z Qopp Qfloor].
  - intros _. rewrite !Z.div_1_r. destruct (_ <=? _); lia.
  - intros [D G]. rewrite Z2Pos.id by assumption. rewrite Z.mul_0_l, Z.mul_1_r.
    destruct (0 <=? n) eqn:N.
    + apply Z.quot_div_nonneg; lia.
    + rewrite <- (Z.opp_involutive n) at 1. rewrite Z.quot_opp_l by lia. rewrite Z.quot_div_nonneg by lia. reflexivity.
Qed.

Lemma frac_squared_ok n d : wf (RFrac n d) -> yields (frac_squared n d) (rval (RFrac n d) * rval (RFrac n d))%Q.
Proof.
  intros [D G]. unfold frac_squared.
  assert (G2 : Z.gcd (n * n) (d * d) = 1) by (rewrite <- !Z.pow_2_r; apply gcd_pow; lia || assumption).
  destruct (mk_frac_ok (n * n) (d * d) ltac:(nia) G2) as (r & R1 & R2 & R3).
  exists r. split; [assumption|]. split; [assumption|]. apply ratio_Q in R3; [|assumption|nia]. rewrite R3.
  cbn [rval]. unfold Qeq. cbn [Qmult Qnum Qden]. rewrite Z2Pos.inj_mul by assumption. reflexivity.
Qed.

Lemma divides_denominator r m d : wf r -> 0 < d -> (rval r == m # Z.to_pos d)%Q -> forall n e, r = RFrac n e -> e <= d.
Proof.
  intros W D E n e ->. destruct W as [W G]. unfold Qeq in E. cbn [rval Qnum Qden] in E. rewrite !Z2Pos.id in E by assumption.
  assert (K : (e | d)). { apply Z.gauss with n; [exists m; lia|]. rewrite Z.gcd_comm. assumption. }
  apply Z.divide_pos_le; assumption.
Qed.

Lemma half_is : frac_divide 1 1 2 1 = Ok (RFrac 1 2).
Proof. reflexivity. Qed.

Lemma rat_rounded_pos n d : wf (RFrac n d) -> 0 <= n ->
  rat_rounded (RFrac n d) = Ok (Qfloor (rval (RFrac n d) + (1 # 2))).
Proof.
  intros W N. unfold rat_rounded. rewrite half_is. cbn [obind]. destruct (n <? 0) eqn:?; [lia|].
  destruct (rat_plus_ok 1 (RFrac n d) (RFrac 1 2) W ltac:(split; [lia|reflexivity]) ltac:(auto)) as (r & R1 & R2 & R3).
  rewrite R1. cbn [obind]. rewrite rat_floor_ok by assumption. f_equal. apply Qfloor_comp. rewrite R3.
  cbn [rval]. unfold sq, inject_Z. change (Z.to_pos 2) with 2%positive. change (1 # 1)%Q with 1%Q. ring.
Qed.

Lemma rat_rounded_neg n d : wf (RFrac n d) -> n < 0 -> is_small (2 * d) = true ->
  rat_rounded (RFrac n d) = Ok (Qceiling (rval (RFrac n d) - (1 # 2))).
Proof.
  intros W N K. unfold rat_rounded. rewrite half_is. cbn [obind]. destruct (n <? 0) eqn:?; [|lia].
  destruct (rat_plus_ok (-1) (RFrac n d) (RFrac 1 2) W ltac:(split; [lia|reflexivity]) ltac:(auto)) as (r & R1 & R2 & R3).
  rewrite R1. cbn [obind].
  assert (E : (rval r == rval (RFrac n d) - (1 # 2))%Q).
  { rewrite R3. cbn [rval]. unfold sq. change (Z.to_pos 2) with 2%positive. change (inject_Z (-1)) with (- (1))%Q. ring. }
  rewrite rat_ceiling_ok; [f_equal; apply Qceiling_comp, E|assumption|].
  intros n' d' ->. pose proof W as [D G].
  assert (L : d' <= 2 * d).
  { apply (divides_denominator (RFrac n' d') (2 * n - d) (2 * d) R2 ltac:(lia)) with n'; [|reflexivity].
    rewrite E. cbn [rval]. destruct d as [|p|]; try lia. unfold Qeq. cbn -[Z.mul]. lia. }
  destruct R2 as [D' _]. unfold is_small in *. lia.
Qed.

Lemma frac_intdiv_ok a b : wf a -> wf b -> ~ (rval b == 0)%Q ->
  frac_intdiv a b = Ok (Qfloor (rval a / rval b)).
Proof.
  intros A B N. unfold frac_intdiv. destruct (rat_divide_ok a b A B N) as (r & R1 & R2 & R3). rewrite R1. cbn [obind].
  rewrite rat_floor_ok by assumption. f_equal. apply Qfloor_comp, R3.
Qed.

Lemma frac_modulo_ok a b : wf a -> wf b -> ~ (rval b == 0)%Q ->
  yields (frac_modulo a b) (rval a - inject_Z (Qfloor (rval a / rval b)) * rval b)%Q.
Proof.
  intros A B N. unfold frac_modulo. rewrite frac_intdiv_ok by assumption. cbn [obind].
  destruct (rat_times_ok false (RInt (Qfloor (rval a / rval b))) b I B ltac:(discriminate)) as (p & P1 & P2 & P3).
  rewrite P1. cbn [obind]. destruct (rat_plus_ok (-1) a p A P2 ltac:(auto)) as (r & R1 & R2 & R3).
  exists r. split; [assumption|]. split; [assumption|]. rewrite R3, P3. cbn [rval]. unfold sq.
  change (inject_Z (-1)) with (- (1))%Q. ring.
Qed.

(** ** Integral sums are Integers *)
Lemma rat_plus_reduced s a b : reduced a -> reduced b -> s = 1 \/ s = -1 ->
  exists r, rat_plus s a b = Ok r /\ reduced r /\ (rval r == rval a + inject_Z s * rval b)%Q.
Proof.
  intros A B S. pose proof (reduced_wf a A) as WA. pose proof (reduced_wf b B) as WB.
  destruct (rat_plus_ok s a b WA WB S) as (r & R1 & R2 & R3). exists r. split; [assumption|]. split; [|exact R3].
  destruct r as [z|n d]; [exact I|]. destruct R2 as [D G]. split; [|assumption].
  assert (d <> 1); [|lia]. intros ->.
  pose proof (as_frac_wf a WA) as [A1 A2]. pose proof (as_frac_wf b WB) as [B1 B2].
  assert (K : frac_plus s (fst (as_frac a)) (snd (as_frac a)) (fst (as_frac b)) (snd (as_frac b)) = Ok (RFrac n 1)
    /\ (1 < snd (as_frac a) \/ 1 < snd (as_frac b))).
  { destruct a as [x|n1 d1], b as [y|n2 d2]; cbn [as_frac fst snd] in *; [discriminate| | |];
      (split; [exact R1|]); destruct A, B; auto. }
  destruct K as [K L]. clear R1 R3 A B WA WB. destruct (as_frac a) as [n1 d1], (as_frac b) as [n2 d2]. cbn [fst snd] in *.
  revert K. unfold frac_plus. rewrite int_gcd_ok by lia. cbn [obind].
  destruct (gcd_parts d1 d2 ltac:(lia)) as (g & x & y & -> & P & X & Y & C). destruct (g =? 1) eqn:E.
  - unfold mk_frac. destruct (d1 * d2 =? 0) eqn:?; [discriminate|]. destruct (d1 * d2 <? 0) eqn:?; [nia|].
    intros K. injection K as _ K. clear - K L A1 B1. nia.
  - rewrite !div_exact_ok by lia. cbn [obind]. rewrite X, Y.
    rewrite (Z.mul_comm g x), (Z.mul_comm g y), !Z.quot_mul by lia. cbn [obind].
    replace (x * g * (y * g)) with (x * g * y * g) by ring. rewrite Z.quot_mul by lia.
    set (num := n1 * y + s * (n2 * x)). set (den := x * g * y). cbn [obind].
    assert (DN : 0 < den).
    { unfold den. assert (0 < x) by (clear - X A1 P; nia). assert (0 < y) by (clear - Y B1 P; nia). nia. }
    rewrite int_gcd_ok by lia. cbn [obind].
    destruct (gcd_parts num den ltac:(lia)) as (h & u & v & -> & Q & U & V & W). rewrite U, V.
    unfold finish_frac. rewrite !div_exact_ok by lia. cbn [obind].
    rewrite (Z.mul_comm h u), (Z.mul_comm h v), !Z.quot_mul by lia.
    destruct (v =? 1) eqn:?; [discriminate|]. unfold mk_frac. destruct (v =? 0) eqn:?; [discriminate|].
    assert (0 < v) by (clear - DN V Q; nia). destruct (v <? 0) eqn:?; [lia|]. intros K. injection K. lia.
Qed.

Lemma small_divide_reduced a b : is_small a = true -> is_small b = true -> b <> 0 ->
  exists r, rat_divide (RInt a) (RInt b) = Ok r /\ reduced r /\ (rval r == inject_Z a / inject_Z b)%Q.
Proof.
  intros A B N. cbn [rat_divide]. unfold int_divide. rewrite A, B. cbn [andb].
  destruct (small_divide_ok a b N) as (r & R1 & R2 & R3). exists r. split; [assumption|]. split; [assumption|].
  assert (E : (inject_Z a / inject_Z b == (a # Z.to_pos 1) / (b # Z.to_pos 1))%Q) by reflexivity.
  rewrite E. apply ratio_Qdiv; try lia; [apply reduced_wf; assumption|]. rewrite Z.mul_1_r, Z.mul_1_l. assumption.
Qed.

(** * The statements of the properties *)
Lemma rat_lt a b : wf a -> wf b -> exists r, rat_rel Z.ltb a b = Ok r /\ (r = true <-> (rval a < rval b)%Q).
Proof. intros A B. rewrite (rat_rel_ok _ _ _ ltb_signed) by assumption. eexists; split; [reflexivity|]. unfold Qlt. lia. Qed.
Lemma rat_le a b : wf a -> wf b -> exists r, rat_rel Z.leb a b = Ok r /\ (r = true <-> (rval a <= rval b)%Q).
Proof. intros A B. rewrite (rat_rel_ok _ _ _ leb_signed) by assumption. eexists; split; [reflexivity|]. unfold Qle. lia. Qed.
Lemma rat_gt a b : wf a -> wf b -> exists r, rat_rel Z.gtb a b = Ok r /\ (r = true <-> (rval b < rval a)%Q).
Proof. intros A B. rewrite (rat_rel_ok _ _ _ gtb_signed) by assumption. eexists; split; [reflexivity|]. unfold Qlt. lia. Qed.
Lemma rat_ge a b : wf a -> wf b -> exists r, rat_rel Z.geb a b = Ok r /\ (r = true <-> (rval b <= rval a)%Q).
Proof. intros A B. rewrite (rat_rel_ok _ _ _ geb_signed) by assumption. eexists; split; [reflexivity|]. unfold Qle. lia. Qed.

Lemma rat_compare_all a b : wf a -> wf b ->
  (exists r, rat_rel Z.ltb a b = Ok r /\ (r = true <-> (rval a < rval b)%Q)) /\
  (exists r, rat_rel Z.leb a b = Ok r /\ (r = true <-> (rval a <= rval b)%Q)) /\
  (exists r, rat_rel Z.gtb a b = Ok r /\ (r = true <-> (rval b < rval a)%Q)) /\
  (exists r, rat_rel Z.geb a b = Ok r /\ (r = true <-> (rval b <= rval a)%Q)) /\
  (rat_eq a b = true <-> (rval a == rval b)%Q).
Proof.
  intros A B. split; [apply rat_lt; assumption|]. split; [apply rat_le; assumption|]. split; [apply rat_gt; assumption|].
  split; [apply rat_ge; assumption|apply rat_eq_ok; assumption].
Qed.

Lemma rat_plus_spec a b : wf a -> wf b -> yields (rat_plus 1 a b) (rval a + rval b)%Q.
Proof.
  intros A B. destruct (rat_plus_ok 1 a b A B ltac:(auto)) as (r & R1 & R2 & R3). exists r. split; [assumption|].
  split; [assumption|]. rewrite R3. unfold sq. change (inject_Z 1) with 1%Q. ring.
Qed.
Lemma rat_minus_spec a b : wf a -> wf b -> yields (rat_plus (-1) a b) (rval a - rval b)%Q.
Proof.
  intros A B. destruct (rat_plus_ok (-1) a b A B ltac:(auto)) as (r & R1 & R2 & R3). exists r. split; [assumption|].
  split; [assumption|]. rewrite R3. unfold sq. change (inject_Z (-1)) with (- (1))%Q. ring.
Qed.

Lemma frac_reciprocal_zero n d : wf (RFrac n d) -> n = 0 -> frac_reciprocal n d = Err.
Proof. intros [D G] ->. unfold frac_reciprocal. destruct (d <? 0) eqn:?; [lia|reflexivity]. Qed.

Lemma rat_rounded_refuted : exists n d, wf (RFrac n d) /\ exists z, rat_rounded (RFrac n d) = Ok z /\
  (rval (RFrac n d) - inject_Z z > 1 # 2)%Q.
Proof.
  exists (2 - 3 * (2 ^ 63 + 1)), (2 * (2 ^ 63 + 1)). split; [split; [reflexivity|vm_compute; reflexivity]|].
  exists (-2). split; [vm_compute; reflexivity|vm_compute; reflexivity].
Qed.

Lemma rat_ceiling_refuted : exists n d, wf (RFrac n d) /\ (inject_Z (rat_ceiling (RFrac n d)) < rval (RFrac n d))%Q.
Proof.
  exists (1 - 2 * 2 ^ 62), (2 ^ 62). split; [split; [reflexivity|vm_compute; reflexivity]|vm_compute; reflexivity].
Qed.

(** z is the integer nearest q; of two equally near ones, the one away from zero. *)
Lemma rounded_pos_spec n d : wf (RFrac n d) -> 0 <= n -> exists z,
  rat_rounded (RFrac n d) = Ok z /\ (inject_Z z - (1 # 2) <= rval (RFrac n d) < inject_Z z + (1 # 2))%Q.
Proof.
  intros W N. eexists; split; [apply rat_rounded_pos; assumption|]. set (q := rval (RFrac n d)). clearbody q.
  pose proof (Qfloor_le (q + (1 # 2))). pose proof (Qlt_floor (q + (1 # 2))).
  rewrite inject_Z_plus in H0. change (inject_Z 1) with 1%Q in H0. set (z := inject_Z _) in *. clearbody z. split; lra.
Qed.
Lemma rounded_neg_spec n d : wf (RFrac n d) -> n < 0 -> is_small (2 * d) = true -> exists z,
  rat_rounded (RFrac n d) = Ok z /\ (inject_Z z - (1 # 2) < rval (RFrac n d) <= inject_Z z + (1 # 2))%Q.
Proof.
  intros W N K. eexists; split; [apply rat_rounded_neg; assumption|]. set (q := rval (RFrac n d)). clearbody q.
  pose proof (Qle_ceiling (q - (1 # 2))). pose proof (Qceiling_lt (q - (1 # 2))).
  unfold Z.sub in H0. rewrite inject_Z_plus in H0. change (inject_Z (- (1))) with (- (1))%Q in H0. set (z := inject_Z _) in *. clearbody z. split; lra.
Qed.

Lemma integral_refuted :
  (exists a b, rat_divide (RInt a) (RInt b) = Ok (RFrac 1 1)) /\
  (exists a b, rat_divide (RInt a) (RInt b) = Ok (RFrac (- 2 ^ 69) 1) /\ a = 2 ^ 70 /\ b = -2) /\
  rat_times false (RInt 0) (RFrac 1 2) = Ok (RFrac 0 1) /\
  rat_divide (RFrac 1 2) (RFrac (-1) 2) = Ok (RFrac (-1) 1) /\
  frac_reciprocal 1 3 = Ok (RFrac 3 1).
Proof.
  split; [exists (2^64), (2^64); vm_compute; reflexivity|].
  split; [exists (2^70), (-2); vm_compute; auto|]. vm_compute. auto.
Qed.
