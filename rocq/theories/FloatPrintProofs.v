(** What is printed for a Float. *)
From Coq Require Import Reals Lra ZifyBool QArith Qreals.
From Flocq Require Import Core.
From Verif Require Import Base Digits Real RealSpec FloatPrint FloatPrintSpec FloatPrintLoop FloatPrintText.
Open Scope Z_scope.
Open Scope R_scope.

Lemma IZR_ten n : (0 <= n)%Z -> IZR (10 ^ n) = bpow ten n.
Proof. intros H. change (10 ^ n)%Z with (Zpower ten n). apply IZR_Zpower. exact H. Qed.

Section Float.
Context (k : kind) (m e : Z).
Hypothesis Hm : is_float k m.
Let u := ulp k e.
Let x := value k m e.

Lemma bits_pos : (0 < bits k)%Z.
Proof. destruct k; cbn; lia. Qed.

Lemma u_pos : 0 < u.
Proof. apply bpow_gt_0. Qed.

Lemma exact_value : Q2R (exact k m e) = x.
Proof. unfold exact. rewrite Q2R_mult, Q2R_Z. unfold x, value, ulp. f_equal. exact (Q2R_qpow radix2 _). Qed.

Lemma x_bounds : bpow radix2 (bits k - 1) * u <= x < bpow radix2 (bits k) * u.
Proof.
  pose proof u_pos. unfold x, value. fold u. destruct Hm as [L U]. pose proof bits_pos.
  rewrite <- !IZR_Zpower by lia.
  split; [apply Rmult_le_compat_r; [lra|apply IZR_le, L]|apply Rmult_lt_compat_r; [lra|apply IZR_lt, U]].
Qed.

Lemma x_exponent : bpow radix2 e <= x < bpow radix2 (e + 1).
Proof.
  pose proof x_bounds as B. unfold u, ulp in B. rewrite <- !bpow_plus in B.
  replace (bits k - 1 + (e - bits k + 1))%Z with e in B by lia.
  replace (bits k + (e - bits k + 1))%Z with (e + 1)%Z in B by lia. exact B.
Qed.

Lemma x_pos : 0 < x.
Proof. pose proof x_exponent. pose proof (bpow_gt_0 radix2 e). lra. Qed.

Lemma x_ge_u : u <= x.
Proof.
  pose proof x_bounds as [B _]. pose proof bits_pos. pose proof u_pos.
  assert (1 <= bpow radix2 (bits k - 1)) by (change 1 with (bpow radix2 0); apply bpow_le; lia). nra.
Qed.

Definition half : R := if (0 <=? e - bits k + 1)%Z then u / 4 else u / 2.

Lemma half_bounds : 0 < half <= u / 2.
Proof. unfold half. pose proof u_pos. destruct (_ <=? _)%Z; lra. Qed.

(** ** The adjustment *)
Section Found.
Context (l z : Z) (f : found).
Hypothesis Hl : bpow ten l <= x < bpow ten (l + 1).
Hypothesis Hf : ends x u l z f.
Let r := rest x z.
Let w := bpow ten z.
Let a := adjustment (0 <=? e - bits k + 1)%Z (qpow 2 (e - bits k + 1)) f.

Inductive adjusted : Prop :=
| Adj_down : (digit f <= 5)%Z -> r + IZR (digit f) * w < half -> a = (- digit f)%Z -> adjusted
| Adj_up : (5 < digit f)%Z -> - half < r + IZR (digit f - 10) * w -> a = (10 - digit f)%Z -> adjusted
| Adj_one : w - r < r -> (0 < digit f)%Z -> ~ ((digit f <= 5)%Z /\ r + IZR (digit f) * w < half) ->
    ~ ((5 < digit f)%Z /\ - half < r + IZR (digit f - 10) * w) -> a = 1%Z -> adjusted
| Adj_none : ~ ((digit f <= 5)%Z /\ r + IZR (digit f) * w < half) ->
    ~ ((5 < digit f)%Z /\ - half < r + IZR (digit f - 10) * w) -> a = 0%Z -> adjusted.

Lemma adjustment_ok : adjusted.
Proof.
  pose proof (rest_bound x z) as B. fold r w in B. pose proof half_bounds as Hh. pose proof u_pos as Hu.
  destruct Hf as [_ Hw _ Hn [_ Hd] _ _ _ _]. fold r in Hn. fold w in Hw.
  unfold a, adjustment.
  set (h := ((if (0 <=? e - bits k + 1)%Z then qpow 2 (e - bits k + 1) / inject_Z 2 else qpow 2 (e - bits k + 1)) / inject_Z 2)%Q).
  assert (Eh : Q2R h = half).
  { unfold h, half. assert (E2 : Q2R (qpow 2 (e - bits k + 1)) = u) by exact (Q2R_qpow radix2 _).
    destruct (_ <=? _)%Z; rewrite !Q2R_div_pos by (rewrite Q2R_Z; lra); rewrite E2, !Q2R_Z; lra. }
  set (c1 := ((digit f <=? 5)%Z && qlt (num f + inject_Z (digit f) * weight f) h)).
  set (c2 := ((5 <? digit f)%Z && qlt (- h) (num f + inject_Z (digit f - 10) * weight f))).
  assert (C1 : c1 = true <-> (digit f <= 5)%Z /\ r + IZR (digit f) * w < half).
  { unfold c1. rewrite andb_true_iff, qlt_ok, Q2R_plus, Q2R_mult, Q2R_Z, Hn, Hw, Eh. split; intros [H1 H2]; split; auto; lia. }
  assert (C2 : c2 = true <-> (5 < digit f)%Z /\ - half < r + IZR (digit f - 10) * w).
  { unfold c2. rewrite andb_true_iff, qlt_ok, Q2R_plus, Q2R_mult, Q2R_opp, Q2R_Z, Hn, Hw, Eh. split; intros [H1 H2]; split; auto; lia. }
  destruct c2 eqn:E2.
  - destruct C2 as [C2 _]. destruct (C2 eq_refl) as [G1 G2]. apply Adj_up; auto.
    unfold a, adjustment. fold h. fold c1. fold c2. rewrite E2. replace (10 - digit f =? 0)%Z with false by lia. reflexivity.
  - destruct c1 eqn:E1.
    + destruct C1 as [C1 _]. destruct (C1 eq_refl) as [G1 G2]. apply Adj_down; auto.
      unfold a, adjustment. fold h. fold c1. fold c2. rewrite E2, E1.
      destruct (- digit f =? 0)%Z eqn:E; cbn [andb]; [|reflexivity]. replace (0 <? digit f)%Z with false by lia. reflexivity.
    + assert (N1 : ~ ((digit f <= 5)%Z /\ r + IZR (digit f) * w < half)) by (rewrite <- C1; discriminate).
      assert (N2 : ~ ((5 < digit f)%Z /\ - half < r + IZR (digit f - 10) * w)) by (rewrite <- C2; discriminate).
      destruct ((0 <? digit f)%Z && qlt (if qlt (num f - weight f) 0 then - (num f - weight f) else num f - weight f)%Q (num f)) eqn:E3.
      * apply andb_prop in E3 as H3. destruct H3 as [H3 H4]. apply Adj_one; auto; [|lia|].
        -- apply qlt_ok in H4. destruct (qlt (num f - weight f) 0) eqn:E4.
           ++ rewrite Q2R_opp, Q2R_minus, Hn, Hw in H4. lra.
           ++ apply qlt_no in E4. rewrite Q2R_minus, Hn, Hw in E4. replace (Q2R 0) with 0 in E4 by (unfold Q2R; cbn; lra). lra.
        -- unfold a, adjustment. fold h. fold c1. fold c2. rewrite E2, E1. cbn [Z.eqb andb]. rewrite H3, H4. reflexivity.
      * apply Adj_none; auto. unfold a, adjustment. fold h. fold c1. fold c2. rewrite E2, E1. cbn [Z.eqb andb].
        destruct (0 <? digit f)%Z; [|reflexivity]. cbn [andb] in E3. rewrite E3. reflexivity.
Qed.

Let N := (digits f + a)%Z.

(** The digits, and how far from the Float they are. *)
Lemma x_digits : x = IZR (digits f) * w + r.
Proof. unfold r, w, rest. destruct Hf as [_ _ -> _ _ _ _ _ _]. lra. Qed.

Lemma D_bounds : (10 ^ (l - z) <= digits f < 10 ^ (l - z + 1))%Z.
Proof.
  pose proof (e_range _ _ _ _ _ Hf) as Hz. pose proof x_digits as X. pose proof (rest_bound x z) as B. fold r w in B.
  assert (P : 0 < w) by apply bpow_gt_0.
  assert (E1 : bpow ten l = IZR (10 ^ (l - z)) * w).
  { rewrite IZR_ten by lia. unfold w. rewrite <- bpow_plus. f_equal. lia. }
  assert (E2 : bpow ten (l + 1) = IZR (10 ^ (l - z + 1)) * w).
  { rewrite IZR_ten by lia. unfold w. rewrite <- bpow_plus. f_equal. lia. }
  rewrite E1, E2 in Hl. split.
  - apply Z.lt_succ_r. apply lt_IZR. rewrite succ_IZR. apply Rmult_lt_reg_r with w; lra.
  - apply lt_IZR. apply Rmult_lt_reg_r with w; lra.
Qed.

Lemma N_error : Rabs (IZR N * w - x) < u.
Proof.
  pose proof x_digits as X. pose proof (rest_bound x z) as B. fold r w in B. pose proof half_bounds as Hh.
  assert (Hr : r < u) by apply (e_down _ _ _ _ _ Hf). pose proof (proj2 (e_digit _ _ _ _ _ Hf)) as Hd.
  assert (P : 0 < w) by apply bpow_gt_0.
  unfold N. rewrite plus_IZR. destruct adjustment_ok as [H1 H2 Ea|H1 H2 Ea|H1 H2 _ _ Ea| _ _ Ea]; rewrite Ea.
  - rewrite opp_IZR. assert (0 <= IZR (digit f)) by (apply IZR_le; lia). assert (0 <= IZR (digit f) * w) by nra.
    apply Rabs_def1; lra.
  - assert (IZR (digit f - 10) <= -1) by (apply IZR_le; lia).
    rewrite minus_IZR in *. assert ((IZR (digit f) - 10) * w <= - w) by nra. apply Rabs_def1; lra.
  - apply Rabs_def1; lra.
  - apply Rabs_def1; lra.
Qed.

Lemma N_bounds : (10 ^ (l - z) <= N <= 10 ^ (l - z + 1))%Z.
Proof.
  pose proof D_bounds as D. pose proof (e_range _ _ _ _ _ Hf) as Hz. pose proof (e_digit _ _ _ _ _ Hf) as [E Hd].
  set (A := whole x (z + 1)) in *.
  assert (P : 0 < w) by apply bpow_gt_0. pose proof (rest_bound x z) as B. fold r w in B.
  assert (E1 : (10 ^ (l - z + 1) = 10 * 10 ^ (l - z))%Z) by (rewrite Z.pow_add_r by lia; lia).
  unfold N. destruct adjustment_ok as [H1 H2 Ea|H1 H2 Ea|H1 H2 _ _ Ea| _ _ Ea]; rewrite Ea; try lia.
  split; [|lia]. destruct (Z.eq_dec (l - z) 0) as [E0|E0].
  - exfalso. rewrite E0 in D. change (10 ^ (0 + 1))%Z with 10%Z in D. change (10 ^ 0)%Z with 1%Z in D.
    assert (digits f = digit f) by lia. pose proof x_digits as X. rewrite H in X.
    pose proof half_bounds. pose proof x_ge_u. pose proof u_pos. lra.
  - assert (E2 : (10 ^ (l - z) = 10 * 10 ^ (l - z - 1))%Z).
    { replace (l - z)%Z with (Z.succ (l - z - 1)) at 1 by lia. rewrite Z.pow_succ_r by lia. reflexivity. }
    lia.
Qed.

Lemma N_nines : (0 < a)%Z -> all_nines f = true -> N = (10 ^ (l - z + 1))%Z.
Proof.
  intros Ha H. rewrite (e_nines _ _ _ _ _ Hf) in H. pose proof N_bounds. unfold N in *. lia.
Qed.

Lemma N_tenth : N = (10 ^ (l - z + 1))%Z -> (0 <? a)%Z && all_nines f = false ->
  x < IZR N * w < x + half /\ IZR N * w = bpow ten (l + 1).
Proof.
  intros EN H. pose proof (e_range _ _ _ _ _ Hf) as Hz. pose proof D_bounds as D. pose proof (e_digit _ _ _ _ _ Hf) as [E Hd].
  pose proof x_digits as X. assert (P : 0 < w) by apply bpow_gt_0. pose proof (rest_bound x z) as B. fold r w in B.
  assert (V : IZR N * w = bpow ten (l + 1)).
  { rewrite EN, IZR_ten by lia. unfold w. rewrite <- bpow_plus. f_equal. lia. }
  split; [|exact V]. split; [lra|].
  rewrite (e_nines _ _ _ _ _ Hf) in H. unfold N in *. rewrite plus_IZR.
  destruct adjustment_ok as [H1 H2 Ea|H1 H2 Ea|H1 H2 _ _ Ea| _ _ Ea]; rewrite Ea in *.
  - exfalso. lia.
  - rewrite minus_IZR in *. lra.
  - exfalso. lia.
  - exfalso. lia.
Qed.
End Found.

(** ** The text *)
Theorem print_ok negative : exists l z f N ints fracs ex,
  bpow ten l <= x < bpow ten (l + 1) /\ ends x u l z f
  /\ N = (digits f + adjustment (0 <=? e - bits k + 1)%Z (qpow 2 (e - bits k + 1)) f)%Z
  /\ print_float k negative m e = Ok (text negative ints fracs ex) /\ readable ints fracs ex
  /\ (written 10 ints fracs ex = IZR N * bpow ten z
      \/ (x < bpow ten (l + 1) < x + half /\ IZR N * bpow ten z = bpow ten (l + 1))).
Proof.
  pose proof bits_pos as Hb. pose proof x_pos as Hx. pose proof u_pos as Hu.
  unfold print_float.
  destruct (floor_log_ok (exact k m e) e) as (l & El & Hl); rewrite ?exact_value in *; [exact Hx|exact x_exponent|].
  rewrite El. cbn [obind]. replace (l + 1 - 1)%Z with l by lia.
  assert (E2 : Q2R (qpow 2 (e - bits k + 1)) = u) by exact (Q2R_qpow radix2 _).
  destruct (loop_ok x l (exact k m e) (qpow 2 (e - bits k + 1)) (Z.to_nat (bits k) + 2) Hl exact_value) as (z & f & Ef & Hf).
  - rewrite E2. replace (l - Z.of_nat (Z.to_nat (bits k) + 2) + 1)%Z with (l + - (bits k + 1))%Z by lia.
    rewrite bpow_plus. pose proof x_bounds as [_ B]. pose proof (two_ten (bits k) ltac:(lia)) as T.
    pose proof (ten_inv (bits k + 1)) as I. rewrite (bpow_ten_S (bits k)) in I.
    pose proof (bpow_gt_0 ten (- (bits k + 1))) as P. pose proof (bpow_gt_0 ten (bits k)).
    apply Rle_trans with (bpow ten (bits k) * u * bpow ten (- (bits k + 1))).
    + apply Rmult_le_compat_r; [lra|]. nra.
    + replace (bpow ten (bits k) * u * bpow ten (- (bits k + 1))) with (u * (bpow ten (bits k) * bpow ten (- (bits k + 1)))) by ring.
      replace (bpow ten (bits k) * bpow ten (- (bits k + 1))) with (/ 10) by (field_simplify_eq; lra). lra.
  - lia.
  - rewrite Ef. cbn [obind]. rewrite E2 in Hf.
    set (a := adjustment (0 <=? e - bits k + 1)%Z (qpow 2 (e - bits k + 1)) f).
    pose proof (N_bounds l z f Hl Hf) as NB. pose proof (N_nines l z f Hl Hf) as NN. pose proof (N_tenth l z f Hl Hf) as NT.
    fold a in NB, NN, NT. set (N := (digits f + a)%Z) in *.
    pose proof (e_range _ _ _ _ _ Hf) as Hz.
    assert (N0 : (0 < N)%Z) by (pose proof (Z.pow_pos_nonneg 10 (l - z) ltac:(lia) ltac:(lia)); lia).
    assert (Hs : qlt (exact k m e) 1 = true \/ (0 <= l)%Z).
    { destruct (qlt (exact k m e) 1) eqn:E; [left; reflexivity|right]. apply qlt_no in E. rewrite exact_value in E.
      replace (Q2R 1) with 1 in E by (unfold Q2R; cbn; lra).
      apply Z.lt_succ_r. rewrite <- Z.add_1_r. apply (lt_bpow ten). change (bpow ten 0) with 1. lra. }
    assert (G : forall ex L, (1 <= L)%Z -> (10 ^ (L - 1) <= N < 10 ^ L)%Z -> (l + 1 <= ex)%Z ->
      exists ints fracs y,
        (if negative then [Minus] else []) ++ layout (qlt (exact k m e) 1) (bits k <? Z.abs e)%Z N ex = text negative ints fracs y
        /\ readable ints fracs y /\ written 10 ints fracs y = IZR N * bpow ten (ex - L)).
    { intros ex L HL HB Hex.
      destruct (layout_ok (qlt (exact k m e) 1) (bits k <? Z.abs e)%Z N ex L N0 HL HB) as (ints & fracs & y & Ey & Ry & Wy).
      - destruct Hs; [auto|right; lia].
      - exists ints, fracs, y. rewrite Ey. auto. }
    destruct ((0 <? a)%Z && all_nines f) eqn:C.
    + apply andb_prop in C. destruct C as [C1 C2]. specialize (NN ltac:(lia) C2).
      destruct (G (l + 1 + 1)%Z (l - z + 2)%Z) as (ints & fracs & y & Ey & Ry & Wy).
      * lia.
      * rewrite NN. replace (l - z + 2 - 1)%Z with (l - z + 1)%Z by lia. split; [lia|]. apply Z.pow_lt_mono_r; lia.
      * lia.
      * exists l, z, f, N, ints, fracs, y. repeat (split; [first [assumption|reflexivity|f_equal; assumption]|]).
        left. rewrite Wy. do 2 f_equal. lia.
    + destruct (Z.eq_dec N (10 ^ (l - z + 1))) as [EN|EN].
      * destruct (G (l + 1)%Z (l - z + 2)%Z) as (ints & fracs & y & Ey & Ry & Wy).
        -- lia.
        -- rewrite EN. replace (l - z + 2 - 1)%Z with (l - z + 1)%Z by lia. split; [lia|]. apply Z.pow_lt_mono_r; lia.
        -- lia.
        -- exists l, z, f, N, ints, fracs, y. destruct (NT EN eq_refl) as [T1 T2]. rewrite T2 in T1.
           repeat (split; [first [assumption|reflexivity|f_equal; assumption]|]).
           right. auto.
      * destruct (G (l + 1)%Z (l - z + 1)%Z) as (ints & fracs & y & Ey & Ry & Wy).
        -- lia.
        -- replace (l - z + 1 - 1)%Z with (l - z)%Z by lia. lia.
        -- lia.
        -- exists l, z, f, N, ints, fracs, y. repeat (split; [first [assumption|reflexivity|f_equal; assumption]|]).
           left. rewrite Wy. do 2 f_equal. lia.
Qed.

(** ** Numbers near the Float *)
Lemma multiple d j i : (i <= j)%Z -> exists d', IZR d * bpow ten j = IZR d' * bpow ten i.
Proof.
  intros H. exists (d * 10 ^ (j - i))%Z. rewrite mult_IZR, IZR_ten by lia. rewrite Rmult_assoc, <- bpow_plus. do 2 f_equal. lia.
Qed.

Lemma whole_below d i t : 0 <= t < bpow ten i -> x = IZR d * bpow ten i + t -> whole x i = d /\ rest x i = t.
Proof.
  intros Ht E. assert (W : whole x i = d) by (apply whole_unique; lra). split; [exact W|]. unfold rest. rewrite W. lra.
Qed.

Lemma near_ok l z f d j : bpow ten l <= x < bpow ten (l + 1) -> ends x u l z f ->
  (0 < d)%Z -> 2 * u <= bpow ten j -> Rabs (IZR d * bpow ten j - x) < half ->
  (x < IZR d * bpow ten j -> (1 < d)%Z) ->
  IZR (digits f + adjustment (0 <=? e - bits k + 1)%Z (qpow 2 (e - bits k + 1)) f) * bpow ten z = IZR d * bpow ten j.
Proof.
  intros Hl Hf Hd Hj Hn Hp.
  pose proof (adjustment_ok l z f Hf) as A. set (a := adjustment _ _ f) in *.
  pose proof half_bounds as Hh. pose proof u_pos as Hu. pose proof (bpow_gt_0 ten j) as Pj.
  pose proof (x_digits l z f Hf) as X. pose proof (rest_bound x z) as B. pose proof (bpow_gt_0 ten z) as Pz.
  pose proof (e_digit _ _ _ _ _ Hf) as [ED HD]. pose proof (e_down _ _ _ _ _ Hf) as Hdown.
  destruct (e_up _ _ _ _ _ Hf) as (i0 & Hi0 & Hup). pose proof (e_first _ _ _ _ _ Hf) as Hfirst.
  pose proof (e_range _ _ _ _ _ Hf) as Hz.
  apply Rabs_def2 in Hn. destruct Hn as [Hn1 Hn2].
  assert (Hjl : (j <= l)%Z).
  { apply Z.lt_succ_r. rewrite <- Z.add_1_r. apply (lt_bpow ten).
    assert (1 <= IZR d) by (apply IZR_le; lia).
    destruct (Rle_lt_dec (IZR d * bpow ten j) x) as [C|C]; [nra|].
    assert (2 <= IZR d) by (apply IZR_le; specialize (Hp C); lia). nra. }
  assert (D0 : 0 <= IZR (digit f) <= 9) by (split; apply IZR_le; lia).
  destruct (Rle_lt_dec (IZR d * bpow ten j) x) as [C|C].
  - set (t := x - IZR d * bpow ten j). assert (Ht : 0 <= t < half) by (unfold t; lra).
    destruct (whole_below d j t ltac:(lra) ltac:(unfold t; lra)) as [Wj Rj].
    destruct (Z_le_gt_dec j z) as [Jz|Jz].
    + (* the digits end before the number does *)
      assert (M : exists q, IZR d * bpow ten j - IZR (digits f) * bpow ten z = IZR q * bpow ten j).
      { destruct (multiple (digits f) z j Jz) as (q & Eq). exists (d - q)%Z. rewrite Eq, minus_IZR. ring. }
      destruct M as (q & Eq).
      assert (Q0 : q = 0%Z).
      { assert (-1 < IZR q < 1).
        { split; apply Rmult_lt_reg_r with (bpow ten j); auto; unfold t in *; lra. }
        destruct H as [Ha Hb]. apply lt_IZR in Ha, Hb. lia. }
      rewrite Q0 in Eq.
      assert (Er : rest x z = t) by (unfold t; lra).
      assert (Wz : 2 * u <= bpow ten z) by (apply Rle_trans with (bpow ten j); [lra|apply bpow_le; exact Jz]).
      destruct A as [H1 H2 Ea|H1 H2 Ea|H1 H2 _ _ Ea| _ _ Ea]; fold a in Ea; rewrite Ea, plus_IZR.
      * assert (digit f = 0%Z).
        { destruct (Z.eq_dec (digit f) 0) as [G|G]; [exact G|]. exfalso. assert (1 <= IZR (digit f)) by (apply IZR_le; lia). nra. }
        rewrite opp_IZR, H. lra.
      * exfalso. rewrite minus_IZR in H2. nra.
      * exfalso. lra.
      * lra.
    + assert (Zj : (z < j)%Z) by lia.
      assert (F : forall i, (z < i <= l)%Z -> rest x i < bpow ten i - u).
      { destruct Hfirst as [F|F]; [exfalso|exact F]. specialize (F j ltac:(lia)). lra. }
      assert (G : rest x (z + 1) = t /\ exists d', whole x (z + 1) = d' /\ IZR d * bpow ten j = IZR d' * bpow ten (z + 1)).
      { destruct (multiple d j (z + 1) ltac:(lia)) as (d' & Ed).
        pose proof (F (z + 1)%Z ltac:(lia)). pose proof (rest_bound x (z + 1)).
        destruct (whole_below d' (z + 1) t ltac:(lra) ltac:(unfold t; lra)) as [W R]. split; [exact R|]. exists d'. auto. }
      destruct G as (R1 & d' & W1 & Ed). pose proof (F (z + 1)%Z ltac:(lia)) as F1. rewrite R1 in F1.
      rewrite bpow_ten_S in *. rewrite W1 in ED. rewrite ED in X. rewrite plus_IZR, mult_IZR in X.
      assert (T : rest x z + IZR (digit f) * bpow ten z = t) by (unfold t; lra).
      assert (D5 : (digit f <= 5)%Z).
      { apply Z.lt_succ_r. apply lt_IZR. change (IZR (Z.succ 5)) with 6. nra. }
      assert (Ea : a = (- digit f)%Z).
      { destruct A as [H1 H2 Ea|H1 H2 Ea|_ _ H1 _ Ea| H1 _ Ea]; [exact Ea|lia| |]; exfalso; apply H1; split; auto; lra. }
      rewrite Ea, ED. replace (10 * d' + digit f + - digit f)%Z with (10 * d')%Z by lia. rewrite mult_IZR. lra.
  - specialize (Hp C). set (t := IZR d * bpow ten j - x). assert (Ht : 0 < t < half) by (unfold t; lra).
    destruct (whole_below (d - 1) j (bpow ten j - t) ltac:(lra) ltac:(rewrite minus_IZR; unfold t; lra)) as [Wj Rj].
    destruct (Z_le_gt_dec j z) as [Jz|Jz].
    + exfalso. destruct (multiple (digits f) z j Jz) as (q & Eq).
      assert (M : IZR (d - q) * bpow ten j - t = rest x z) by (rewrite minus_IZR; unfold t; lra).
      assert (G : 0 < IZR (d - q) < 1).
      { split; apply Rmult_lt_reg_r with (bpow ten j); auto; lra. }
      destruct G as [Ga Gb]. apply lt_IZR in Ga, Gb. lia.
    + assert (Zj : (z < j)%Z) by lia.
      assert (F : forall i, (z < i <= l)%Z -> u <= rest x i).
      { destruct Hfirst as [F|F]; [exact F|exfalso]. specialize (F j ltac:(lia)). lra. }
      destruct (multiple d j (z + 1) ltac:(lia)) as (d' & Ed).
      pose proof (F (z + 1)%Z ltac:(lia)) as F1. pose proof (rest_bound x (z + 1)) as B1.
      destruct (whole_below (d' - 1) (z + 1) (bpow ten (z + 1) - t) ltac:(lra) ltac:(rewrite minus_IZR; unfold t; lra)) as [W1 R1].
      rewrite R1 in F1. rewrite bpow_ten_S in *. rewrite W1 in ED. rewrite ED in X. rewrite plus_IZR, mult_IZR, minus_IZR in X.
      assert (T : rest x z + IZR (digit f - 10) * bpow ten z = - t) by (rewrite minus_IZR; unfold t; lra).
      assert (D6 : (5 < digit f)%Z).
      { apply lt_IZR. rewrite minus_IZR in T. nra. }
      assert (Ea : a = (10 - digit f)%Z).
      { destruct A as [H1 H2 Ea|H1 H2 Ea|_ _ _ H1 Ea|_ H1 Ea]; [lia|exact Ea| |]; exfalso; apply H1; split; auto; lra. }
      rewrite Ea, ED. replace (10 * (d' - 1) + digit f + (10 - digit f))%Z with (10 * d')%Z by lia. rewrite mult_IZR. lra.
Qed.
End Float.
