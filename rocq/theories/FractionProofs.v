From Coq Require Import Znumtheory.
From Coq Require Import Qpower.
From Verif Require Import Base IntMath IntMathProofs Fraction FractionSpec.

Lemma gcd_pos a b : b <> 0 -> 0 < Z.gcd a b.
Proof.
  intros B. pose proof (Z.gcd_nonneg a b). destruct (Z.eq_dec (Z.gcd a b) 0) as [E|]; [|lia].
  apply Z.gcd_eq_0_r in E. lia.
Qed.

Lemma rp_mult_l a b c : Z.gcd a c = 1 -> Z.gcd b c = 1 -> Z.gcd (a * b) c = 1.
Proof.
  rewrite !Zgcd_1_rel_prime. intros A B. apply rel_prime_sym, rel_prime_mult; apply rel_prime_sym; assumption.
Qed.
Lemma rp_mult_r a b c : Z.gcd a b = 1 -> Z.gcd a c = 1 -> Z.gcd a (b * c) = 1.
Proof. rewrite !Zgcd_1_rel_prime. apply rel_prime_mult. Qed.
Lemma rp_add a k m : Z.gcd a m = 1 -> Z.gcd (a + k * m) m = 1.
Proof. intros H. rewrite Z.gcd_comm, Z.gcd_add_mult_diag_r, Z.gcd_comm. assumption. Qed.
Lemma rp_factor_l a b c : Z.gcd (a * b) c = 1 -> Z.gcd a c = 1.
Proof.
  intros H. assert (D : (Z.gcd a c | 1)).
  { rewrite <- H. apply Z.gcd_greatest; [apply Z.divide_mul_l|]; [apply Z.gcd_divide_l|apply Z.gcd_divide_r]. }
  apply Z.divide_1_r_nonneg; [apply Z.gcd_nonneg|assumption].
Qed.
Lemma rp_factor_r a b c : Z.gcd a (b * c) = 1 -> Z.gcd a b = 1.
Proof. rewrite !(Z.gcd_comm a). apply rp_factor_l. Qed.

(** [r] is the fraction N / D *)
Definition ratio (r : rat) (N D : Z) : Prop :=
  let (n, d) := as_frac r in n * D = N * d.

Lemma mk_frac_ok n d : d <> 0 -> Z.gcd n d = 1 ->
  exists r, mk_frac n d = Ok r /\ wf r /\ ratio r n d.
Proof.
  intros D G. unfold mk_frac. destruct (d =? 0) eqn:?; [lia|]. destruct (d <? 0) eqn:?.
  - eexists; split; [reflexivity|]. split; [split; [lia|rewrite Z.gcd_opp_l, Z.gcd_opp_r; assumption]|].
    unfold ratio; cbn [as_frac]. ring.
  - eexists; split; [reflexivity|]. split; [split; [lia|assumption]|]. unfold ratio; cbn [as_frac]. ring.
Qed.

Lemma finish_frac_ok a b g : g <> 0 -> b <> 0 -> Z.gcd a b = 1 ->
  exists r, finish_frac (g * a) (g * b) g = Ok r /\ wf r /\ ratio r a b.
Proof.
  intros G B R. unfold finish_frac. rewrite !div_exact_ok by assumption. cbn [obind].
  rewrite (Z.mul_comm g a), (Z.mul_comm g b), !Z.quot_mul by assumption. cbn [obind].
  destruct (b =? 1) eqn:E.
  - eexists; split; [reflexivity|]. split; [exact I|]. unfold ratio; cbn [as_frac]. replace b with 1 by lia. ring.
  - apply mk_frac_ok; assumption.
Qed.

Lemma gcd_parts a b : b <> 0 -> exists g x y, Z.gcd a b = g /\ 0 < g /\ a = g * x /\ b = g * y /\ Z.gcd x y = 1.
Proof.
  intros B. pose proof (gcd_pos a b B) as G.
  destruct (Z.gcd_divide_l a b) as [x X], (Z.gcd_divide_r a b) as [y Y].
  exists (Z.gcd a b), x, y. split; [reflexivity|]. split; [assumption|]. split; [lia|]. split; [lia|].
  set (g := Z.gcd a b) in *. assert (E : g * Z.gcd x y = g).
  { rewrite <- Z.gcd_mul_mono_l_nonneg by lia. rewrite (Z.mul_comm g x), (Z.mul_comm g y), <- X, <- Y. reflexivity. }
  clearbody g. nia.
Qed.

Lemma frac_times_ok same n1 d1 n2 d2 : 0 < d1 -> 0 < d2 -> Z.gcd n1 d1 = 1 -> Z.gcd n2 d2 = 1 ->
  (same = true -> n1 = n2 /\ d1 = d2) ->
  exists r, frac_times same n1 d1 n2 d2 = Ok r /\ wf r /\ ratio r (n1 * n2) (d1 * d2).
Proof.
  intros D1 D2 G1 G2 S. unfold frac_times. destruct (n2 =? 0) eqn:E2.
  { eexists; split; [reflexivity|]. split; [split; assumption|]. unfold ratio; cbn [as_frac]. replace n2 with 0 by lia. ring. }
  destruct (n1 =? 0) eqn:E1.
  { eexists; split; [reflexivity|]. split; [split; assumption|]. unfold ratio; cbn [as_frac]. replace n1 with 0 by lia. ring. }
  destruct same.
  { destruct (S eq_refl) as [<- <-].
    assert (G : Z.gcd (n1 * n1) (d1 * d1) = 1) by (apply rp_mult_l; apply rp_mult_r; assumption).
    destruct (d1 * d1 =? 1) eqn:E.
    - eexists; split; [reflexivity|]. split; [exact I|]. unfold ratio; cbn [as_frac]. replace (d1 * d1) with 1 by lia. ring.
    - apply mk_frac_ok; [nia|assumption]. }
  rewrite !int_gcd_ok by lia. cbn [obind].
  destruct (gcd_parts n1 d2 ltac:(lia)) as (g & a & b & -> & P1 & A1 & B1 & C1).
  destruct (gcd_parts d1 n2 ltac:(lia)) as (h & c & e & -> & P2 & A2 & B2 & C2).
  cbn [obind]. subst n1 d2 d1 n2.
  replace (g * a * (h * e)) with ((g * h) * (a * e)) by ring.
  replace (h * c * (g * b)) with ((g * h) * (b * c)) by ring.
  destruct (finish_frac_ok (a * e) (b * c) (g * h)) as (r & R1 & R2 & R3).
  - nia.
  - clear - D1 D2 P1 P2. intros E. assert (b = 0 \/ c = 0) as [-> | ->] by nia; lia.
  - assert (Z.gcd a c = 1).
    { rewrite (Z.mul_comm g), (Z.mul_comm h) in G1. apply rp_factor_l in G1. apply rp_factor_r in G1. assumption. }
    assert (Z.gcd e b = 1).
    { rewrite (Z.mul_comm h), (Z.mul_comm g) in G2. apply rp_factor_l in G2. apply rp_factor_r in G2. assumption. }
    apply rp_mult_l; apply rp_mult_r; try assumption. rewrite Z.gcd_comm. assumption.
  - exists r. split; [assumption|]. split; [assumption|].
    unfold ratio in *. destruct (as_frac r) as [u v].
    transitivity ((g * h) * (u * (b * c))); [ring|]. rewrite R3. ring.
Qed.

Lemma ratio_scale r k N D : k <> 0 -> (ratio r (k * N) (k * D) <-> ratio r N D).
Proof.
  intros K. unfold ratio. destruct (as_frac r) as [u v]. split; intros H.
  - apply (Z.mul_reg_l _ _ k); [assumption|]. transitivity (u * (k * D)); [ring|]. rewrite H. ring.
  - transitivity (k * (u * D)); [ring|]. rewrite H. ring.
Qed.

Lemma frac_plus_ok s n1 d1 n2 d2 : 0 < d1 -> 0 < d2 -> Z.gcd n1 d1 = 1 -> Z.gcd n2 d2 = 1 -> s = 1 \/ s = -1 ->
  exists r, frac_plus s n1 d1 n2 d2 = Ok r /\ wf r /\ ratio r (n1 * d2 + s * (n2 * d1)) (d1 * d2).
Proof.
  intros D1 D2 G1 G2 S. unfold frac_plus. rewrite int_gcd_ok by lia. cbn [obind].
  destruct (gcd_parts d1 d2 ltac:(lia)) as (g & a & b & -> & P & A & B & C).
  destruct (g =? 1) eqn:E.
  - assert (g = 1) by lia. subst g. rewrite Z.mul_1_l in *. subst a b.
    apply mk_frac_ok; [nia|]. apply rp_mult_r.
    + replace (n1 * d2 + s * (n2 * d1)) with (n1 * d2 + (s * n2) * d1) by ring. apply rp_add.
      apply rp_mult_l; [assumption|]. rewrite Z.gcd_comm. assumption.
    + replace (n1 * d2 + s * (n2 * d1)) with (s * (n2 * d1) + n1 * d2) by ring. apply rp_add.
      apply rp_mult_l; [destruct S as [-> | ->]; [apply Z.gcd_1_l|]|apply rp_mult_l; assumption].
      change (-1) with (- (1)). rewrite Z.gcd_opp_l. apply Z.gcd_1_l.
  - rewrite !div_exact_ok by lia. cbn [obind]. subst d1 d2.
    rewrite (Z.mul_comm g a), (Z.mul_comm g b), !Z.quot_mul by lia. cbn [obind].
    replace (a * g * (b * g)) with (a * g * b * g) by ring. rewrite Z.quot_mul by lia.
    set (num := n1 * b + s * (n2 * a)). set (den := a * g * b). cbn [obind].
    assert (DN : den <> 0) by (unfold den; nia).
    rewrite int_gcd_ok by lia. cbn [obind].
    destruct (gcd_parts num den DN) as (h & x & y & -> & Q & X & Y & K). rewrite X, Y.
    destruct (finish_frac_ok x y h) as (r & R1 & R2 & R3); [lia|intros ->; lia|assumption|].
    exists r. split; [assumption|]. split; [assumption|].
    apply (ratio_scale r h) in R3; [|lia]. rewrite <- X, <- Y in R3.
    apply (ratio_scale r g) in R3; [|lia].
    replace (n1 * (b * g) + s * (n2 * (a * g))) with (g * num) by (unfold num; ring).
    rewrite <- Y, (Z.mul_comm den g). assumption.
Qed.

Lemma frac_divide_ok n1 d1 n2 d2 : 0 < d1 -> 0 < d2 -> Z.gcd n1 d1 = 1 -> Z.gcd n2 d2 = 1 -> n2 <> 0 ->
  exists r, frac_divide n1 d1 n2 d2 = Ok r /\ wf r /\ ratio r (n1 * d2) (d1 * n2).
Proof.
  intros D1 D2 G1 G2 N. unfold frac_divide. destruct (n2 =? 0) eqn:E2; [lia|].
  destruct (n1 =? 0) eqn:E1.
  { eexists; split; [reflexivity|]. split; [split; assumption|]. unfold ratio; cbn [as_frac]. replace n1 with 0 by lia. ring. }
  rewrite !int_gcd_ok by lia. cbn [obind].
  destruct (gcd_parts n1 n2 N) as (g & a & b & -> & P1 & A1 & B1 & C1).
  destruct (gcd_parts d1 d2 ltac:(lia)) as (h & c & e & -> & P2 & A2 & B2 & C2).
  cbn [obind]. subst n1 n2 d1 d2.
  replace (g * a * (h * e)) with ((g * h) * (a * e)) by ring.
  replace (h * c * (g * b)) with ((g * h) * (b * c)) by ring.
  destruct (finish_frac_ok (a * e) (b * c) (g * h)) as (r & R1 & R2 & R3).
  - nia.
  - clear - D1 N P1 P2. intros E. assert (b = 0 \/ c = 0) as [-> | ->] by nia; lia.
  - assert (Z.gcd a c = 1).
    { rewrite (Z.mul_comm g), (Z.mul_comm h) in G1. apply rp_factor_l in G1. apply rp_factor_r in G1. assumption. }
    assert (Z.gcd b e = 1).
    { rewrite (Z.mul_comm h), (Z.mul_comm g) in G2. apply rp_factor_l in G2. apply rp_factor_r in G2. assumption. }
    apply rp_mult_l; apply rp_mult_r; try assumption; rewrite Z.gcd_comm; assumption.
  - exists r. split; [assumption|]. split; [assumption|]. apply (ratio_scale r (g * h)) in R3; [exact R3|nia].
Qed.

Lemma reduce_ok n d : 0 < d -> ~ (n = 1 /\ d = 1) ->
  exists r, reduce (RFrac n d) = Ok r /\ reduced r /\ ratio r n d.
Proof.
  intros D N. unfold reduce. destruct (n =? 1) eqn:E1.
  { eexists; split; [reflexivity|]. split; [|unfold ratio; cbn [as_frac]; ring].
    split; [lia|]. replace n with 1 by lia. apply Z.gcd_1_l. }
  destruct (d =? 1) eqn:E2.
  { eexists; split; [reflexivity|]. split; [exact I|]. unfold ratio; cbn [as_frac]. replace d with 1 by lia. ring. }
  destruct (n =? 0) eqn:E3.
  { eexists; split; [reflexivity|]. split; [exact I|]. unfold ratio; cbn [as_frac]. replace n with 0 by lia. ring. }
  destruct (n =? d) eqn:E4.
  { eexists; split; [reflexivity|]. split; [exact I|]. unfold ratio; cbn [as_frac]. lia. }
  rewrite int_gcd_ok by lia. cbn [obind].
  destruct (gcd_parts n d ltac:(lia)) as (g & x & y & G & P & X & Y & C). rewrite G.
  destruct (g =? 1) eqn:E5.
  { eexists; split; [reflexivity|]. split; [split; lia|]. unfold ratio; cbn [as_frac]. ring. }
  rewrite !div_exact_ok by lia. cbn [obind]. destruct (d =? g) eqn:E6.
  { eexists; split; [reflexivity|]. split; [exact I|]. unfold ratio; cbn [as_frac].
    rewrite X, (Z.mul_comm g x), Z.quot_mul by lia. replace g with d by lia. ring. }
  eexists; split; [reflexivity|]. rewrite X, Y, (Z.mul_comm g x), (Z.mul_comm g y), !Z.quot_mul by lia.
  assert (0 < y) by nia. assert (y <> 1) by (intros ->; lia).
  split; [split; [lia|assumption]|]. unfold ratio; cbn [as_frac]. ring.
Qed.

Lemma reduced_wf r : reduced r -> wf r.
Proof. destruct r; [auto|]. cbn. intros [? ?]. split; [lia|assumption]. Qed.

Lemma ratio_int a b : b <> 0 -> Z.rem a b = 0 -> ratio (RInt (Z.quot a b)) a b.
Proof.
  intros B R. unfold ratio. cbn [as_frac]. pose proof (Z.quot_rem' a b). lia.
Qed.

Lemma small_divide_ok a b : b <> 0 -> exists r, small_divide a b = Ok r /\ reduced r /\ ratio r a b.
Proof.
  intros B. unfold small_divide. destruct (b =? 0) eqn:?; [lia|].
  destruct (_ && _) eqn:E.
  { eexists; split; [reflexivity|]. split; [exact I|]. apply ratio_int; [assumption|].
    apply andb_prop in E as [E _]. lia. }
  assert (S : is_small (Z.quot a b) = false \/ Z.rem a b <> 0).
  { apply andb_false_iff in E as [E|E]; [right; lia|left; assumption]. }
  assert (NU : forall n d, (n = a /\ d = b) \/ (n = - a /\ d = - b) -> ~ (n = 1 /\ d = 1)).
  { intros n d H [-> ->]. destruct S as [S|S].
    - destruct H as [[<- <-]|[H1 H2]]; [cbv in S; discriminate|].
      replace a with (-1) in S by lia. replace b with (-1) in S by lia. cbv in S. discriminate.
    - destruct H as [[<- <-]|[H1 H2]]; [cbv in S; congruence|].
      replace a with (-1) in S by lia. replace b with (-1) in S by lia. cbv in S. congruence. }
  unfold mk_frac. destruct (b =? 0); [discriminate|]. destruct (b <? 0) eqn:N; cbn [obind].
  - destruct (reduce_ok (- a) (- b) ltac:(lia)) as (r & R1 & R2 & R3); [apply NU; auto|].
    exists r. split; [assumption|]. split; [assumption|].
    apply (ratio_scale r (-1)); [lia|]. replace (-1 * a) with (- a) by ring. replace (-1 * b) with (- b) by ring. assumption.
  - destruct (reduce_ok a b ltac:(lia)) as (r & R1 & R2 & R3); [apply NU; auto|]. eauto.
Qed.

Lemma large_divide_ok a b : b <> 0 -> exists r, large_divide a b = Ok r /\ wf r /\ ratio r a b.
Proof.
  intros B. unfold large_divide. destruct (b =? 0) eqn:?; [lia|].
  destruct (a =? 0) eqn:A0.
  { eexists; split; [reflexivity|]. split; [exact I|]. unfold ratio; cbn [as_frac]. replace a with 0 by lia. ring. }
  unfold large_gcd. replace ((a =? 0) || (b =? 0)) with false by lia.
  destruct (gcd_parts a b B) as (g & x & y & G & P & X & Y & C). rewrite G.
  assert (Y0 : y <> 0) by (intros ->; lia).
  destruct (g =? a) eqn:E1.
  { rewrite div_exact_ok by lia. cbn [obind]. rewrite Y, (Z.mul_comm g y), Z.quot_mul by lia.
    assert (x = 1) by nia. subst x.
    destruct (mk_frac_ok 1 y Y0 (Z.gcd_1_l y)) as (r & R1 & R2 & R3). exists r. split; [assumption|]. split; [assumption|].
    rewrite X. rewrite (Z.mul_comm y g). apply ratio_scale; [lia|assumption]. }
  destruct (g =? b) eqn:E2.
  { rewrite div_exact_ok by lia. cbn [obind]. rewrite X, (Z.mul_comm g x), Z.quot_mul by lia.
    eexists; split; [reflexivity|]. split; [exact I|]. unfold ratio; cbn [as_frac]. replace b with g by lia. ring. }
  rewrite !div_exact_ok by lia. cbn [obind]. rewrite X, Y, (Z.mul_comm g x), (Z.mul_comm g y), !Z.quot_mul by lia. cbn [obind].
  destruct (mk_frac_ok x y Y0 C) as (r & R1 & R2 & R3). exists r. split; [assumption|]. split; [assumption|].
  rewrite (Z.mul_comm x g), (Z.mul_comm y g). apply ratio_scale; [lia|assumption].
Qed.

Lemma int_divide_ok a b : b <> 0 -> exists r, int_divide a b = Ok r /\ wf r /\ ratio r a b.
Proof.
  intros B. unfold int_divide. destruct (_ && _).
  - destruct (small_divide_ok a b B) as (r & ? & ? & ?). eauto using reduced_wf.
  - apply large_divide_ok, B.
Qed.

(** ** In terms of Q *)
Lemma as_frac_wf r : wf r -> 0 < snd (as_frac r) /\ Z.gcd (fst (as_frac r)) (snd (as_frac r)) = 1.
Proof. destruct r; cbn; intros H; [split; [lia|apply Z.gcd_1_r]|assumption]. Qed.

Lemma rval_as_frac r : wf r -> rval r = (fst (as_frac r) # Z.to_pos (snd (as_frac r)))%Q.
Proof. destruct r; reflexivity. Qed.

Lemma ratio_Q r N D : wf r -> 0 < D -> ratio r N D -> (rval r == N # Z.to_pos D)%Q.
Proof.
  intros W P H. rewrite rval_as_frac by assumption. apply as_frac_wf in W as [W _]. unfold ratio in H.
  destruct (as_frac r) as [u v]. cbn [fst snd] in *. unfold Qeq. cbn [Qnum Qden]. rewrite !Z2Pos.id by assumption. assumption.
Qed.

Definition sq (s : Z) : Q := inject_Z s.

Lemma rat_plus_ok s a b : wf a -> wf b -> s = 1 \/ s = -1 ->
  yields (rat_plus s a b) (rval a + sq s * rval b)%Q.
Proof.
  intros A B S.
  assert (K : exists r, rat_plus s a b = Ok r /\ wf r /\ ratio r (fst (as_frac a) * snd (as_frac b) + s * (fst (as_frac b) * snd (as_frac a)))
     (snd (as_frac a) * snd (as_frac b))).
  { pose proof (as_frac_wf a A) as [A1 A2]. pose proof (as_frac_wf b B) as [B1 B2].
    destruct a as [x|n1 d1], b as [y|n2 d2]; try (apply frac_plus_ok; assumption).
    eexists; split; [reflexivity|]. split; [exact I|]. unfold ratio; cbn [as_frac fst snd]. ring. }
  destruct K as (r & R1 & R2 & R3). exists r. split; [assumption|]. split; [assumption|].
  pose proof (as_frac_wf a A) as [A1 A2]. pose proof (as_frac_wf b B) as [B1 B2].
  apply ratio_Q in R3; [|assumption|nia]. rewrite R3. rewrite (rval_as_frac a A), (rval_as_frac b B).
  destruct (as_frac a) as [n1 d1], (as_frac b) as [n2 d2]. cbn [fst snd] in *.
  destruct d1 as [|p1|]; try lia. destruct d2 as [|p2|]; try lia.
  unfold Qeq, sq, inject_Z. cbn -[Z.mul Z.add]. rewrite ?Z2Pos.id by lia. rewrite !Pos2Z.inj_mul. ring.
Qed.

Lemma rat_times_ok same a b : wf a -> wf b -> (same = true -> a = b) ->
  yields (rat_times same a b) (rval a * rval b)%Q.
Proof.
  intros A B S.
  assert (K : exists r, rat_times same a b = Ok r /\ wf r /\ ratio r (fst (as_frac a) * fst (as_frac b))
     (snd (as_frac a) * snd (as_frac b))).
  { pose proof (as_frac_wf a A) as [A1 A2]. pose proof (as_frac_wf b B) as [B1 B2].
    destruct a as [x|n1 d1], b as [y|n2 d2]; try (apply frac_times_ok; try assumption; discriminate).
    - eexists; split; [reflexivity|]. split; [exact I|]. unfold ratio; cbn [as_frac fst snd]. ring.
    - apply frac_times_ok; try assumption. intros E. specialize (S E). injection S. auto. }
  destruct K as (r & R1 & R2 & R3). exists r. split; [assumption|]. split; [assumption|].
  pose proof (as_frac_wf a A) as [A1 A2]. pose proof (as_frac_wf b B) as [B1 B2].
  apply ratio_Q in R3; [|assumption|nia]. rewrite R3. rewrite (rval_as_frac a A), (rval_as_frac b B).
  destruct (as_frac a) as [n1 d1], (as_frac b) as [n2 d2]. cbn [fst snd] in *.
  destruct d1 as [|p1|]; try lia. destruct d2 as [|p2|]; try lia.
  unfold Qeq. cbn -[Z.mul Z.add]. rewrite ?Z2Pos.id by lia. rewrite !Pos2Z.inj_mul. ring.
Qed.

Lemma rval_zero b : wf b -> ((rval b == 0)%Q <-> fst (as_frac b) = 0).
Proof.
  intros B. rewrite rval_as_frac by assumption. unfold Qeq. cbn [Qnum Qden]. lia.
Qed.

Lemma ratio_Qdiv r n1 d1 n2 d2 : wf r -> 0 < d1 -> 0 < d2 -> n2 <> 0 -> ratio r (n1 * d2) (d1 * n2) ->
  (rval r == (n1 # Z.to_pos d1) / (n2 # Z.to_pos d2))%Q.
Proof.
  intros W D1 D2 N R.
  destruct d1 as [|p1|]; try lia. destruct d2 as [|p2|]; try lia. cbn [Z.to_pos].
  destruct n2 as [|m|m]; [lia| |].
  - change (Z.pos p1 * Z.pos m) with (Z.pos (p1 * m)) in R. apply ratio_Q in R; [|assumption|lia]. rewrite R.
    unfold Qeq, Qdiv, Qmult, Qinv. cbn [Qnum Qden Z.to_pos]. rewrite ?Pos2Z.inj_mul. ring.
  - apply (ratio_scale r (-1)) in R; [|lia]. change (-1 * (Z.pos p1 * Z.neg m)) with (Z.pos (p1 * m)) in R.
    apply ratio_Q in R; [|assumption|lia]. rewrite R.
    unfold Qeq, Qdiv, Qmult, Qinv. cbn [Qnum Qden Z.to_pos].
    rewrite ?Pos2Z.inj_mul. change (Z.neg p2) with (- Z.pos p2). ring.
Qed.

Lemma rat_divide_ok a b : wf a -> wf b -> ~ (rval b == 0)%Q ->
  yields (rat_divide a b) (rval a / rval b)%Q.
Proof.
  intros A B N. rewrite rval_zero in N by assumption.
  assert (K : exists r, rat_divide a b = Ok r /\ wf r /\ ratio r (fst (as_frac a) * snd (as_frac b))
     (snd (as_frac a) * fst (as_frac b))).
  { pose proof (as_frac_wf a A) as [A1 A2]. pose proof (as_frac_wf b B) as [B1 B2].
    destruct a as [x|n1 d1], b as [y|n2 d2]; try (apply frac_divide_ok; assumption).
    cbn [rat_divide as_frac fst snd] in *. rewrite Z.mul_1_r, Z.mul_1_l. apply int_divide_ok, N. }
  destruct K as (r & R1 & R2 & R3). exists r. split; [assumption|]. split; [assumption|].
  pose proof (as_frac_wf a A) as [A1 A2]. pose proof (as_frac_wf b B) as [B1 B2].
  rewrite (rval_as_frac a A), (rval_as_frac b B). apply ratio_Qdiv; assumption.
Qed.

Lemma rat_divide_zero a b : wf a -> wf b -> (rval b == 0)%Q -> rat_divide a b = Err.
Proof.
  intros A B N. rewrite rval_zero in N by assumption.
  destruct a as [x|n1 d1], b as [y|n2 d2]; cbn in N; subst; try reflexivity.
  unfold rat_divide, int_divide, small_divide, large_divide. cbn [Z.eqb]. destruct (_ && _); reflexivity.
Qed.

Lemma rat_negated_ok a : wf a -> yields (rat_negated a) (- rval a)%Q.
Proof.
  intros A. destruct a as [x|n d].
  - exists (RInt (- x)). split; [reflexivity|]. split; [exact I|]. unfold Qeq. cbn. lia.
  - destruct A as [D G]. unfold rat_negated, mk_frac. destruct (d =? 0) eqn:?; [lia|]. destruct (d <? 0) eqn:?; [lia|].
    exists (RFrac (0 - n) d). split; [reflexivity|]. split; [split; [assumption|]|].
    + rewrite Z.sub_0_l, Z.gcd_opp_l. assumption.
    + unfold Qeq. cbn -[Z.mul]. lia.
Qed.

Lemma frac_reciprocal_ok n d : wf (RFrac n d) -> n <> 0 -> yields (frac_reciprocal n d) (/ rval (RFrac n d))%Q.
Proof.
  intros [D G] N. unfold frac_reciprocal. destruct (d <? 0) eqn:?; [lia|].
  destruct (mk_frac_ok d n N ltac:(rewrite Z.gcd_comm; assumption)) as (r & R1 & R2 & R3).
  exists r. split; [assumption|]. split; [assumption|].
  assert (E : (/ rval (RFrac n d) == (1 # Z.to_pos 1) / (n # Z.to_pos d))%Q) by (unfold Qdiv; cbn [rval Z.to_pos]; ring).
  rewrite E. apply ratio_Qdiv; try assumption; try lia. unfold ratio in *. destruct (as_frac r). lia.
Qed.

Lemma gcd_pow n d e : 0 <= e -> Z.gcd n d = 1 -> Z.gcd (n ^ e) (d ^ e) = 1.
Proof.
  intros E G. assert (K : forall m, Z.gcd m d = 1 -> Z.gcd m (d ^ e) = 1).
  { intros m M. revert e E. apply natlike_ind; [apply Z.gcd_1_r|]. intros x X IH. rewrite Z.pow_succ_r by assumption.
    apply rp_mult_r; assumption. }
  apply K. clear K. revert e E. apply natlike_ind; [apply Z.gcd_1_l|]. intros x X IH. rewrite Z.pow_succ_r by assumption.
  apply rp_mult_l; assumption.
Qed.

Lemma frac_power_ok n d e : wf (RFrac n d) -> 0 <= e -> yields (frac_power n d e) (rval (RFrac n d) ^ e)%Q.
Proof.
  intros [D G] E. assert (P : 0 < d ^ e) by (apply Z.pow_pos_nonneg; lia).
  unfold frac_power. destruct (mk_frac_ok (n ^ e) (d ^ e) ltac:(lia) (gcd_pow n d e E G)) as (r & R1 & R2 & R3).
  exists r. split; [assumption|]. split; [assumption|]. apply ratio_Q in R3; [|assumption|assumption]. rewrite R3.
  clear - D E. revert e E. apply natlike_ind.
  - cbn. reflexivity.
  - intros x X IH. assert (P : 0 < d ^ x) by (apply Z.pow_pos_nonneg; lia).
    rewrite !Z.pow_succ_r by assumption. rewrite Z2Pos.inj_mul by assumption.
    change (n * n ^ x # Z.to_pos d * Z.to_pos (d ^ x))%Q with ((n # Z.to_pos d) * (n ^ x # Z.to_pos (d ^ x)))%Q.
    rewrite IH. cbn [rval]. replace (Z.succ x) with (1 + x) by lia.
    rewrite Qpower_plus'; [|lia]. reflexivity.
Qed.
