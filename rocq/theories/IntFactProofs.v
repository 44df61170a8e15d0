From Coq Require Import Znumtheory.
From Verif Require Import Base IntMath IntMathSpec IntMathProofs.

(** ** The stack of partial products *)
Definition prod (l : list Z) : Z := fold_right Z.mul 1 l.
Lemma fold_mul l : forall a, fold_left Z.mul l a = a * prod l.
Proof.
  induction l as [|x l IH]; intros a; cbn [fold_left prod fold_right]; [lia|]. rewrite IH. unfold prod. ring.
Qed.

(** The number of ones in the binary notation of k. *)
Fixpoint ones (p : positive) : nat :=
  match p with xH => 1%nat | xO p => ones p | xI p => S (ones p) end.
Definition ones_z (z : Z) : nat := match z with Zpos p => ones p | _ => O end.

Lemma ones_double z : 0 <= z -> ones_z (2 * z + 1) = S (ones_z z).
Proof. destruct z; cbn; lia. Qed.

Lemma lxor_double x y : Z.lxor (2 * x) (2 * y + 1) = 2 * Z.lxor x y + 1.
Proof.
  apply Z.bits_inj'. intros i I. rewrite Z.lxor_spec.
  destruct (Z.eq_dec i 0) as [->|N].
  - rewrite Z.testbit_even_0, !Z.testbit_odd_0. reflexivity.
  - replace i with (Z.succ (i - 1)) by lia.
    rewrite Z.testbit_even_succ, !Z.testbit_odd_succ by lia. symmetry. apply Z.lxor_spec.
Qed.

Lemma combine_ok p : forall fuel a st, (Pos.to_nat p <= fuel)%nat ->
  length st = ones_z (Zpos p - 1) ->
  exists a' st', combine_factors fuel (Z.lxor (Zpos p) (Zpos p - 1)) a st = Ok (a', st') /\
    a' * prod st' = a * prod st /\ S (length st') = ones p /\
    (exists pre, a' = fold_left Z.mul pre a /\ st = pre ++ st') /\ Z.lxor (Zpos p) (Zpos p - 1) >= 1.
Proof.
  induction p as [p IH|p IH|]; intros fuel a st F L.
  - assert (E : Z.lxor (Zpos p~1) (Zpos p~1 - 1) = 1).
    { replace (Zpos p~1 - 1) with (2 * Zpos p) by lia. replace (Zpos p~1) with (2 * Zpos p + 1) by lia.
      rewrite Z.lxor_comm, lxor_double, Z.lxor_nilpotent. reflexivity. }
    rewrite E. exists a, st. destruct fuel; cbn [combine_factors Z.eqb Pos.eqb];
    (split; [reflexivity|]; split; [reflexivity|]; split; [|split; [exists []; auto|lia]]);
    rewrite L; cbn [ones]; f_equal; replace (Zpos p~1 - 1) with (Zpos p~0) by lia; reflexivity.
  - assert (E : Z.lxor (Zpos p~0) (Zpos p~0 - 1) = 2 * Z.lxor (Zpos p) (Zpos p - 1) + 1).
    { rewrite <- lxor_double. f_equal; lia. }
    assert (L' : length st = S (ones_z (Zpos p - 1))).
    { rewrite L, <- ones_double by lia. f_equal. lia. }
    destruct st as [|x st]; [discriminate|]. injection L' as L'.
    destruct fuel as [|f]; [lia|].
    destruct (IH f (a * x) st ltac:(lia) L') as (a' & st' & C & P & O & (pre & E1 & E2) & G).
    exists a', st'. rewrite E. cbn [combine_factors].
    destruct (_ =? 1) eqn:X; [lia|].
    rewrite Z.shiftr_div_pow2 by lia. change (2 ^ 1) with 2.
    replace ((2 * Z.lxor (Z.pos p) (Z.pos p - 1) + 1) / 2) with (Z.lxor (Z.pos p) (Z.pos p - 1)) by lia.
    split; [exact C|]. split; [rewrite P; unfold prod; cbn [fold_right]; ring|]. split; [exact O|].
    split; [|lia]. exists (x :: pre). cbn [fold_left app]. rewrite E2. auto.
  - exists a, st. destruct st; [|discriminate]. destruct fuel; cbn;
    (split; [reflexivity|]; split; [reflexivity|]; split; [reflexivity|]; split; [exists []; auto|lia]).
Qed.

(** ** Factorials *)
Definition zfact (z : Z) : Z := fact (Z.to_nat z).
Lemma zfact_small z : 0 <= z < 2 -> zfact z = 1.
Proof. intros. assert (z = 0 \/ z = 1) as [-> | ->] by lia; reflexivity. Qed.
Lemma zfact_step z : 1 <= z -> zfact z = z * zfact (z - 1).
Proof.
  intros H. unfold zfact. replace (Z.to_nat z) with (S (Z.to_nat (z - 1))) by lia. cbn [fact]. f_equal. lia.
Qed.

Lemma fact_inner_ok fuel : forall max a b n, 2 <= n -> n <= Z.of_nat fuel ->
  exists r, fact_inner fuel max a b n = Ok r /\
  match r with
  | Finished x => x = a * b * zfact (n - 2)
  | Batch x m => x * zfact m = a * b * zfact (n - 2) /\ 2 <= m <= n - 2
  end.
Proof.
  induction fuel as [|f IH]; intros max a b n N F; [lia|]. cbn [fact_inner].
  destruct (n - 2 <? 2) eqn:E.
  - eexists. split; [reflexivity|]. cbn beta iota. rewrite zfact_small by lia. ring.
  - destruct (b <? max).
    + destruct (IH max (a * (n - 2 - 1)) (b * (n - 2)) (n - 2) ltac:(lia) ltac:(lia)) as (r & -> & R).
      exists r. split; [reflexivity|].
      assert (Z2 : zfact (n - 2) = (n - 2) * ((n - 2 - 1) * zfact (n - 2 - 2))).
      { rewrite zfact_step by lia. rewrite (zfact_step (n - 2 - 1)) by lia. do 3 f_equal. lia. }
      rewrite Z2. destruct r; [rewrite R; ring|]. destruct R as [R R']. split; [rewrite R; ring|lia].
    + eexists. split; [reflexivity|]. cbn beta iota. split; [reflexivity|lia].
Qed.

Lemma fact_outer_ok fuel : forall k n st, 2 <= n -> n < 2 * Z.of_nat fuel + 4 -> 1 <= k ->
  length st = ones_z (k - 1) ->
  fact_outer fuel k n st = Ok (zfact n * prod st).
Proof.
  induction fuel as [|f IH]; intros k n st N F K L; cbn [fact_outer];
  destruct (fact_inner_ok (Z.to_nat n) (small_largest / n) (n - 1) n n N ltac:(lia)) as (r & -> & R);
  (assert (Z2 : zfact n = (n - 1) * n * zfact (n - 2)) by
  (rewrite zfact_step by lia; rewrite (zfact_step (n - 1)) by lia; replace (n - 1 - 1) with (n - 2) by lia; ring));
  cbn [obind]; destruct r as [x|x m].
  - rewrite fold_mul, R, Z2. reflexivity.
  - lia.
  - rewrite fold_mul, R, Z2. reflexivity.
  - destruct R as [R R']. destruct k as [|p|p]; [lia| |lia].
    destruct (combine_ok p (Z.to_nat (Z.pos p)) x st ltac:(lia) L) as (a' & st' & -> & P & O & _).
    cbn [obind]. rewrite IH; try lia.
    + unfold prod at 1; cbn [fold_right]; fold (prod st'). f_equal. rewrite Z2, <- R, P. ring.
    + cbn [length]. rewrite O. replace (Z.pos p + 1 - 1) with (Z.pos p) by lia. reflexivity.
Qed.

Lemma factorial_ok n : 0 <= n -> factorial n = Ok (zfact n).
Proof.
  intros N. unfold factorial. destruct (n <? 0) eqn:?; [lia|]. destruct (n <? 2) eqn:?.
  - rewrite zfact_small by lia. reflexivity.
  - rewrite fact_outer_ok by (reflexivity || lia). unfold prod; cbn [fold_right]. f_equal. ring.
Qed.

(** ** Binomial coefficients *)
Lemma choose_above n : forall k, (n < k)%nat -> choose n k = 0.
Proof.
  induction n as [|n IH]; intros [|k] H; try lia; [reflexivity|]. cbn [choose]. rewrite !IH by lia. reflexivity.
Qed.
Lemma choose_absorb n : forall k, Z.of_nat (S k) * choose (S n) (S k) = Z.of_nat (S n) * choose n k.
Proof.
  induction n as [|n IH]; intros k.
  - destruct k; [reflexivity|]. cbn [choose]. lia.
  - change (choose (S (S n)) (S k)) with (choose (S n) k + choose (S n) (S k)).
    rewrite Z.mul_add_distr_l, IH. destruct k as [|k].
    + cbn [choose]. destruct n; cbn [choose]; lia.
    + replace (Z.of_nat (S (S k))) with (Z.of_nat (S k) + 1) by lia.
      rewrite Z.mul_add_distr_r, IH. cbn [choose]. rewrite (Z.mul_comm 1). 
      change (choose (S n) (S k)) with (choose n k + choose n (S k)). lia.
Qed.
Lemma fact_pos n : 0 < fact n.
Proof. induction n; cbn [fact]; lia. Qed.
Lemma choose_fact n : forall k, (k <= n)%nat -> choose n k * fact k * fact (n - k) = fact n.
Proof.
  induction n as [|n IH]; intros [|k] H; [reflexivity|lia| |].
  - change (choose (S n) 0) with 1. change (fact 0) with 1. rewrite Nat.sub_0_r. ring.
  - cbn [fact]. rewrite <- (IH k) by lia. cbn [Nat.sub].
    transitivity (Z.of_nat (S k) * choose (S n) (S k) * (fact k * fact (n - k))); [ring|].
    rewrite choose_absorb. ring.
Qed.
Lemma choose_sym n k : (k <= n)%nat -> choose n (n - k) = choose n k.
Proof.
  intros H. pose proof (choose_fact n k H) as A. pose proof (choose_fact n (n - k) ltac:(lia)) as B.
  replace (n - (n - k))%nat with k in B by lia.
  pose proof (fact_pos k). pose proof (fact_pos (n - k)).
  apply (Z.mul_reg_r _ _ (fact k * fact (n - k))); [nia|].
  transitivity (fact n); [rewrite <- B|rewrite <- A]; ring.
Qed.

Definition zchoose (n k : Z) : Z := choose (Z.to_nat n) (Z.to_nat k).
Lemma zchoose_absorb n k : 1 <= k -> 1 <= n -> k * zchoose n k = n * zchoose (n - 1) (k - 1).
Proof.
  intros K N. unfold zchoose. pose proof (choose_absorb (Z.to_nat (n - 1)) (Z.to_nat (k - 1))) as H.
  replace (S (Z.to_nat (n - 1))) with (Z.to_nat n) in H by lia.
  replace (S (Z.to_nat (k - 1))) with (Z.to_nat k) in H by lia.
  rewrite !Z2Nat.id in H by lia. exact H.
Qed.
Lemma zchoose_1 n : 1 <= n -> zchoose n 1 = n.
Proof.
  intros N. pose proof (zchoose_absorb n 1 ltac:(lia) N) as H.
  change (zchoose (n - 1) (1 - 1)) with (choose (Z.to_nat (n - 1)) 0) in H.
  replace (choose (Z.to_nat (n - 1)) 0) with 1 in H by (destruct (Z.to_nat (n - 1)); reflexivity). lia.
Qed.

Lemma simplify u v : 0 < u -> 0 < v ->
  exists g x y, int_gcd u v = Ok g /\ div_exact u g = Ok x /\ div_exact v g = Ok y /\ u = g * x /\ v = g * y /\ 0 < g /\ 0 < x /\ 0 < y.
Proof.
  intros U V. exists (Z.gcd u v).
  assert (G : 0 < Z.gcd u v).
  { pose proof (Z.gcd_nonneg u v). destruct (Z.eq_dec (Z.gcd u v) 0) as [E|]; [|lia].
    apply Z.gcd_eq_0_r in E. lia. }
  destruct (Z.gcd_divide_l u v) as [x X], (Z.gcd_divide_r u v) as [y Y]. exists x, y.
  split; [apply int_gcd_ok; lia|]. rewrite !div_exact_ok by lia.
  set (g := Z.gcd u v) in *. clearbody g. subst u v. rewrite !Z.quot_mul by lia.
  split; [reflexivity|]. split; [reflexivity|]. split; [ring|]. split; [ring|]. nia.
Qed.

Lemma binom_while_ok fuel : forall max num den n k, 1 <= k <= n -> k <= Z.of_nat fuel + 1 -> 0 < num -> 0 < den ->
  exists r, binom_while fuel max num den n k = Ok r /\
  match r with
  | BFinished x y => 0 < x /\ 0 < y /\ x * den = y * (num * zchoose n k) /\ num <= max
  | BGoOn x y n' k' => 0 < x /\ 0 < y /\ x * zchoose n' k' * den = num * zchoose n k * y /\   1 <= k' <= k /\ n' - k' = n - k /\ (num <= max -> k' < k) /\ max < x
  end.
Proof.
  induction fuel as [|f IH]; intros max num den n k K F P Q; cbn [binom_while];
  (destruct (num <=? max) eqn:M;
   [|eexists; split; [reflexivity|]; cbn beta iota; split; [lia|]; split; [lia|]; split; [ring|lia]]);
  destruct (k =? 1) eqn:E.
  1,3: assert (k = 1) by lia; subst k;
    destruct (simplify (num * n) (den * 1) ltac:(nia) ltac:(lia)) as (g & x & y & -> & X & Y & U & V & G0 & X0 & Y0);
    cbn [obind]; rewrite X; cbn [obind]; rewrite Y; cbn [obind];
    eexists; (split; [reflexivity|]); cbn beta iota; (split; [lia|]; split; [lia|]; split; [|lia]);
    rewrite zchoose_1 by lia; apply (Z.mul_reg_l _ _ g); [lia|];
    rewrite Z.mul_1_r in V; rewrite V, U; ring.
  1: lia.
  destruct (IH max (num * n) (den * k) (n - 1) (k - 1) ltac:(lia) ltac:(lia) ltac:(nia) ltac:(nia)) as (r & -> & R).
  exists r. split; [reflexivity|].
  pose proof (zchoose_absorb n k ltac:(lia) ltac:(lia)) as A. destruct r as [x y|x y n' k'].
  - destruct R as (R1 & R2 & R3 & R4). split; [lia|]. split; [lia|]. split; [|lia].
    apply (Z.mul_reg_l _ _ k); [lia|]. replace (k * (y * (num * zchoose n k))) with (y * num * (k * zchoose n k)) by ring.
    rewrite A. transitivity (x * (den * k)); [ring|]. rewrite R3. ring.
  - destruct R as (R1 & R2 & R3 & R4 & R5 & R6 & R7). split; [lia|]. split; [lia|]. split; [|lia].
    apply (Z.mul_reg_l _ _ k); [lia|]. replace (k * (num * zchoose n k * y)) with (num * y * (k * zchoose n k)) by ring.
    rewrite A. transitivity (x * zchoose n' k' * (den * k)); [ring|]. rewrite R3. ring.
Qed.

Lemma binom_fill_ok fuel : forall num den n k, 1 <= k <= n -> k <= Z.of_nat fuel + 1 -> 0 < num -> 0 < den ->
  num <= small_largest / n ->
  exists r, binom_fill fuel num den n k = Ok r /\
  match r with
  | BFinished x y => 0 < x /\ 0 < y /\ x * den = y * (num * zchoose n k)
  | BGoOn x y n' k' => 0 < x /\ 0 < y /\ x * zchoose n' k' * den = num * zchoose n k * y /\   1 <= k' < k /\ n' - k' = n - k
  end.
Proof.
  induction fuel as [|f IH]; intros num den n k K F P Q M; cbn [binom_fill];
  destruct (binom_while_ok (Z.to_nat k) (small_largest / n) num den n k K ltac:(lia) P Q) as (r & -> & R);
  cbn [obind]; destruct r as [x y|x y n' k'];
  [eexists; split; [reflexivity|tauto]|lia|eexists; split; [reflexivity|tauto]|].
  destruct R as (R1 & R2 & R3 & R4 & R5 & R6 & R7).
  destruct (simplify x y R1 R2) as (g & a & b & -> & A & B & U & V & G0 & A0 & B0).
  cbn [obind]. destruct (g >? 1) eqn:G; [|eexists; split; [reflexivity|]; cbn beta iota; split; [lia|]; split; [lia|]; split; [exact R3|lia]].
  rewrite A. cbn [obind]. rewrite B. cbn [obind].
  assert (S3 : a * zchoose n' k' * den = num * zchoose n k * b).
  { apply (Z.mul_reg_l _ _ g); [lia|]. transitivity (x * zchoose n' k' * den); [rewrite U; ring|]. rewrite R3, V. ring. }
  destruct (a <=? small_largest / n) eqn:L.
  2: { eexists; split; [reflexivity|]; cbn beta iota; split; [lia|]; split; [lia|]; split; [exact S3|lia]. }
  assert (small_largest / n <= small_largest / n') by (apply Z.div_le_compat_l; unfold small_largest; lia).
  destruct (IH a b n' k' ltac:(lia) ltac:(lia) A0 B0 ltac:(lia)) as (r & -> & R). exists r. split; [reflexivity|].
  destruct r as [x' y'|x' y' n2 k2].
  - destruct R as (T1 & T2 & T3). split; [lia|]. split; [lia|].
    apply (Z.mul_reg_l _ _ b); [lia|]. transitivity (x' * b * den); [ring|]. rewrite T3.
    transitivity (y' * (a * zchoose n' k' * den)); [ring|]. rewrite S3. ring.
  - destruct R as (T1 & T2 & T3 & T4 & T5). split; [lia|]. split; [lia|]. split; [|lia].
    apply (Z.mul_reg_l _ _ b); [lia|]. transitivity (x' * zchoose n2 k2 * b * den); [ring|]. rewrite T3.
    transitivity (y' * (a * zchoose n' k' * den)); [ring|]. rewrite S3. ring.
Qed.

Lemma prod_pos l : Forall (Z.lt 0) l -> 0 < prod l.
Proof. unfold prod. induction 1; cbn [fold_right]; lia. Qed.
Lemma fold_pos l : forall a, 0 < a -> Forall (Z.lt 0) l -> 0 < fold_left Z.mul l a.
Proof. intros a A F. rewrite fold_mul. pose proof (prod_pos l F). lia. Qed.

Lemma binom_outer_ok fuel : forall step n k nums dens T, 1 <= k <= n -> n <= small_largest ->
  k <= Z.of_nat fuel + 1 -> 1 <= step ->
  length nums = ones_z (step - 1) -> length dens = ones_z (step - 1) ->
  Forall (Z.lt 0) nums -> Forall (Z.lt 0) dens ->
  prod nums * zchoose n k = T * prod dens ->
  binom_outer fuel step n k nums dens = Ok T.
Proof.
  induction fuel as [|f IH]; intros step n k nums dens T K N F S LN LD PN PD E; cbn [binom_outer];
  (assert (M : 1 <= small_largest / n) by (apply Z.div_le_lower_bound; lia));
  destruct (binom_fill_ok (Z.to_nat k) 1 1 n k K ltac:(lia) ltac:(lia) ltac:(lia) M) as (r & -> & R);
  cbn [obind]; destruct r as [x y|x y n' k'].
  1,3: destruct R as (R1 & R2 & R3); rewrite !fold_mul; f_equal; pose proof (prod_pos dens PD) as DP;
    (replace (x * prod nums) with (T * (y * prod dens)); [apply Z.div_mul; nia|]);
    rewrite Z.mul_1_r in R3; rewrite R3; transitivity (y * (prod nums * zchoose n k)); [rewrite E|]; ring.
  1: lia.
  destruct R as (R1 & R2 & R3 & R4 & R5). destruct step as [|p|p]; [lia| |lia].
  destruct (combine_ok p (Z.to_nat (Z.pos p)) x nums ltac:(lia) LN) as (a & nums' & -> & P1 & O1 & (p1 & E1 & E2) & _).
  destruct (combine_ok p (Z.to_nat (Z.pos p)) y dens ltac:(lia) LD) as (b & dens' & C2 & P2 & O2 & (p2 & E3 & E4) & _).
  cbn [obind]. rewrite C2. cbn [obind]. rewrite E2 in PN. rewrite E4 in PD.
  apply Forall_app in PN as [PN1 PN2]. apply Forall_app in PD as [PD1 PD2].
  destruct (simplify a b) as (g & u & v & -> & A & B & U & V & G0 & U0 & V0);
    [subst a; apply fold_pos; assumption|subst b; apply fold_pos; assumption|].
  cbn [obind]. rewrite A. cbn [obind]. rewrite B. cbn [obind].
  apply IH; try lia.
  - cbn [length]. rewrite O1. replace (Z.pos p + 1 - 1) with (Z.pos p) by lia. reflexivity.
  - cbn [length]. rewrite O2. replace (Z.pos p + 1 - 1) with (Z.pos p) by lia. reflexivity.
  - constructor; assumption.
  - constructor; assumption.
  - change (prod (u :: nums')) with (u * prod nums'). change (prod (v :: dens')) with (v * prod dens').
    apply (Z.mul_reg_l _ _ g); [lia|].
    transitivity (a * prod nums' * zchoose n' k'); [rewrite U; ring|]. rewrite P1.
    transitivity (b * prod dens' * T); [|rewrite V; ring]. rewrite P2.
    transitivity (prod nums * (x * zchoose n' k' * 1)); [ring|]. rewrite R3.
    transitivity (y * (prod nums * zchoose n k)); [ring|]. rewrite E. ring.
Qed.

Lemma binomial_ok fuel n k : 0 <= k <= n -> n <= small_largest -> n <= Z.of_nat fuel + 1 ->
  binomial fuel n k = Ok (zchoose n k).
Proof.
  intros K N F. unfold binomial. destruct (_ || _) eqn:G; [lia|]. clear G.
  assert (C : zchoose n (if k + k >? n then n - k else k) = zchoose n k).
  { destruct (k + k >? n); [|reflexivity]. unfold zchoose.
    replace (Z.to_nat (n - k)) with (Z.to_nat n - Z.to_nat k)%nat by lia. apply choose_sym. lia. }
  set (j := if k + k >? n then n - k else k) in *. assert (J : 0 <= j <= n) by (destruct (k + k >? n) eqn:?; lia).
  rewrite <- C. clearbody j. destruct (j =? 0) eqn:E.
  - replace j with 0 by lia. unfold zchoose. destruct (Z.to_nat n); reflexivity.
  - apply binom_outer_ok; try (lia || reflexivity || constructor).
Qed.

Lemma binom_diverges fuel : forall step n k nums dens, 2 ^ 62 <= n -> 1 <= k ->
  1 <= step -> length nums = ones_z (step - 1) -> length dens = ones_z (step - 1) ->
  Forall (Z.lt 0) nums -> Forall (Z.lt 0) dens ->
  binom_outer fuel step n k nums dens = OutOfFuel.
Proof.
  induction fuel as [|f IH]; intros step n k nums dens N K S LN LD PN PD; cbn [binom_outer];
  (assert (B : binom_fill (Z.to_nat k) 1 1 n k = Ok (BGoOn 1 1 n k)) by
   (destruct (Z.to_nat k) eqn:Ek; [lia|]; cbn [binom_fill];
    replace (small_largest / n) with 0 by (symmetry; apply Z.div_small; unfold small_largest; lia);
    rewrite Ek; reflexivity)); rewrite B; cbn [obind]; (destruct step as [|p|p]; [lia| |lia]);
  destruct (combine_ok p (Z.to_nat (Z.pos p)) 1 nums ltac:(lia) LN) as (a & nums' & -> & P1 & O1 & (p1 & E1 & E2) & _);
  destruct (combine_ok p (Z.to_nat (Z.pos p)) 1 dens ltac:(lia) LD) as (b & dens' & C2 & P2 & O2 & (p2 & E3 & E4) & _);
  cbn [obind]; rewrite C2; cbn [obind]; rewrite E2 in PN; rewrite E4 in PD;
  apply Forall_app in PN as [PN1 PN2]; apply Forall_app in PD as [PD1 PD2];
  (destruct (simplify a b) as (g & u & v & -> & A & D & U & V & G0 & U0 & V0);
    [subst a; apply fold_pos; [lia|assumption]|subst b; apply fold_pos; [lia|assumption]|]);
  cbn [obind]; rewrite A; cbn [obind]; rewrite D; cbn [obind]; [reflexivity|].
  apply IH; try lia.
  - cbn [length]. rewrite O1. replace (Z.pos p + 1 - 1) with (Z.pos p) by lia. reflexivity.
  - cbn [length]. rewrite O2. replace (Z.pos p + 1 - 1) with (Z.pos p) by lia. reflexivity.
  - constructor; assumption.
  - constructor; assumption.
Qed.

Lemma binomial_diverges n k : 2 ^ 62 <= n -> 0 < k < n -> forall fuel, binomial fuel n k = OutOfFuel.
Proof.
  intros N K fuel. unfold binomial. destruct (_ || _) eqn:G; [lia|]. clear G.
  set (j := if k + k >? n then n - k else k) in *. assert (J : 0 < j) by (destruct (k + k >? n) eqn:?; lia).
  clearbody j. destruct (j =? 0) eqn:E; [lia|].
  apply binom_diverges; try (lia || reflexivity || constructor).
Qed.
