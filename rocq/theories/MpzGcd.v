From Coq Require Import Znumtheory.
From Verif Require Import Base Digits IntRep IntRepProofs Mpz MpzSpec MpzProofs MpzOps.

Lemma ctz_spec p : 0 <= ctz p /\ exists q, Z.odd q = true /\ 0 < q /\ Zpos p = 2 ^ ctz p * q.
Proof.
  induction p as [p IH|p IH|]; cbn [ctz].
  - split; [lia|]. exists (Zpos p~1). repeat split; lia.
  - destruct IH as [N (q & O & P & E)]. split; [lia|]. exists q. split; [assumption|]. split; [assumption|].
    rewrite Z.pow_add_r by lia. rewrite Pos2Z.inj_xO, E. ring.
  - split; [lia|]. exists 1. repeat split; lia.
Qed.

Lemma gcd_odd_double p q : Z.odd p = true -> Z.gcd p (2 * q) = Z.gcd p q.
Proof.
  intros O. apply Z.divide_antisym_nonneg; try apply Z.gcd_nonneg.
  - apply Z.gcd_greatest; [apply Z.gcd_divide_l|].
    apply Z.gauss with 2; [apply Z.gcd_divide_r|].
    set (g := Z.gcd p (2 * q)).
    assert (G : (Z.gcd g 2 | p)).
    { eapply Z.divide_trans; [apply Z.gcd_divide_l|apply Z.gcd_divide_l]. }
    assert (G2 : (Z.gcd g 2 | 2)) by apply Z.gcd_divide_r.
    pose proof (Z.gcd_nonneg g 2). apply Z.divide_pos_le in G2 as L; [|lia].
    assert (C : Z.gcd g 2 = 0 \/ Z.gcd g 2 = 1 \/ Z.gcd g 2 = 2) by lia.
    destruct C as [C|[C|C]]; [|assumption|].
    + rewrite C in G2. apply Z.divide_0_l in G2. discriminate.
    + rewrite C in G. destruct G as [k ->]. rewrite Z.odd_mul in O. cbn in O. rewrite andb_false_r in O. discriminate.
  - apply Z.gcd_greatest; [apply Z.gcd_divide_l|]. apply Z.divide_mul_r, Z.gcd_divide_r.
Qed.

Lemma gcd_odd_pow p q k : Z.odd p = true -> 0 <= k -> Z.gcd p (2 ^ k * q) = Z.gcd p q.
Proof.
  intros O K. revert k K q. apply (natlike_ind (fun k => forall q, Z.gcd p (2 ^ k * q) = Z.gcd p q)).
  - intros q. rewrite Z.pow_0_r, Z.mul_1_l. reflexivity.
  - intros k K IH q. rewrite Z.pow_succ_r by assumption.
    replace (2 * 2 ^ k * q) with (2 ^ k * (2 * q)) by ring. rewrite IH. apply gcd_odd_double, O.
Qed.

Lemma gcd_pow2 i j p q : 0 <= i -> 0 <= j -> Z.odd p = true -> Z.odd q = true ->
  Z.gcd (2 ^ i * p) (2 ^ j * q) = 2 ^ Z.min i j * Z.gcd p q.
Proof.
  intros I J P Q. destruct (Z.le_ge_cases i j) as [L|L].
  - rewrite Z.min_l by assumption. replace j with (i + (j - i)) by lia. rewrite Z.pow_add_r, <- Z.mul_assoc by lia.
    rewrite Z.gcd_mul_mono_l_nonneg by (apply Z.pow_nonneg; lia). rewrite gcd_odd_pow by (assumption || lia). reflexivity.
  - rewrite Z.min_r by assumption. replace i with (j + (i - j)) by lia. rewrite Z.pow_add_r, <- Z.mul_assoc by lia.
    rewrite Z.gcd_mul_mono_l_nonneg by (apply Z.pow_nonneg; lia).
    rewrite Z.gcd_comm, gcd_odd_pow by (assumption || lia). rewrite Z.gcd_comm. reflexivity.
Qed.

Lemma log2_top l : digits_ok LB l -> l <> [] -> top l <> 0 ->
  Z.log2 (dval LB l) = 64 * (Z.of_nat (length l) - 1) + Z.log2 (top l).
Proof.
  intros O N T. pose proof (top_ok LB l LB0 O) as TO.
  rewrite (dval_top LB l N).
  pose proof (dval_bound LB _ LB_gt1 (digits_ok_removelast _ _ O)) as B.
  assert (LN : (1 <= length l)%nat) by (destruct l; [congruence|cbn [length]; lia]).
  rewrite removelast_len, Nat2Z.inj_sub in B by assumption. change (Z.of_nat 1) with 1 in B.
  set (k := Z.of_nat (length l) - 1) in *.
  assert (K : 0 <= k) by (destruct l; [congruence|subst k; cbn [length]; lia]).
  rewrite LBpow2 in * by assumption. set (t := top l) in *. set (x := dval LB (removelast l)) in *.
  assert (TP : 0 < t) by lia. clearbody t x k. clear - B K TP.
  pose proof (Z.log2_spec t TP) as [L1 L2]. pose proof (Z.log2_nonneg t).
  apply Z.log2_unique; [lia|].
  rewrite Z.pow_add_r by lia. rewrite <- Z.add_succ_r, Z.pow_add_r by lia.
  set (M := 2 ^ (64 * k)) in *. nia.
Qed.

Lemma last_app_r (a b : list Z) : b <> [] -> last (a ++ b) 0 = last b 0.
Proof.
  intros N. induction a as [|x a IH]; [reflexivity|]. cbn [app].
  rewrite <- IH. destruct (a ++ b) eqn:E; [|reflexivity].
  apply app_eq_nil in E. destruct E. contradiction.
Qed.

Definition strip_low (l : list Z) : outcome (list Z * (Z * Z)) :=
  olet zb := mpn_scan1 l in
  let zl := zb / 64 in
  let zb := zb mod 64 in
  let l := skipn (Z.to_nat zl) l in
  Ok (if zb =? 0 then l else strip1 (mpn_rshift l zb), (zl, zb)).

Lemma strip1_top_bound l x : digits_ok LB l -> l <> [] -> dval LB l = x -> 0 < x ->
  LB ^ (Z.of_nat (length l) - 2) <= x -> top (strip1 l) <> 0 /\ strip1 l <> [].
Proof.
  intros O N V P B. unfold strip1. destruct (top l =? 0) eqn:E; [|split; [lia|assumption]].
  apply Z.eqb_eq in E. pose proof (dval_top LB l N) as D. rewrite E in D.
  assert (NE : removelast l <> []).
  { intros R. rewrite R in D. rewrite dval_nil in D. lia. }
  split; [|assumption]. apply top_of_bound; [apply digits_ok_removelast, O|assumption|].
  rewrite removelast_len.
  replace (Z.of_nat (length l - 1) - 1) with (Z.of_nat (length l) - 2) by (destruct l; [congruence|cbn [length]; lia]). lia.
Qed.

Lemma strip_low_ok l : digits_ok LB l -> l <> [] -> top l <> 0 ->
  exists k q r, 0 <= k /\ strip_low l = Ok (r, (k / 64, k mod 64)) /\
    dval LB l = 2 ^ k * q /\ Z.odd q = true /\ 0 < q /\
    digits_ok LB r /\ dval LB r = q /\ r <> [] /\ top r <> 0.
Proof.
  intros O N T. pose proof (top_nonzero_bound l O N T) as TB. pose proof (dval_bound LB l LB_gt1 O) as DB.
  assert (LN : (1 <= length l)%nat) by (destruct l; [congruence|cbn [length]; lia]).
  assert (P : 0 < dval LB l).
  { assert (0 < LB ^ (Z.of_nat (length l) - 1)) by (apply Z.pow_pos_nonneg; [apply LB0|lia]). lia. }
  unfold strip_low, mpn_scan1. destruct (dval LB l) as [|p|p] eqn:EV; [lia| |lia].
  destruct (ctz_spec p) as [K (q & OQ & PQ & E)]. set (k := ctz p) in *. clearbody k. cbn [obind].
  exists k, q. eexists. split; [exact K|]. split; [reflexivity|]. split; [exact E|]. split; [exact OQ|]. split; [exact PQ|].
  (* the limbs dropped are all zero *)
  set (z := Z.to_nat (k / 64)). set (s := skipn z l).
  assert (ZE : Z.of_nat z = k / 64) by (subst z; lia).
  pose proof (dval_skipn z l O) as SV. fold s in SV. rewrite ZE, EV in SV.
  pose proof (digits_ok_skipn LB z l O) as SO. fold s in SO.
  assert (P1 : 0 < LB ^ (k / 64)) by (apply Z.pow_pos_nonneg; [apply LB0|lia]).
  assert (SV' : dval LB s = 2 ^ (k mod 64) * q).
  { rewrite SV, E, (pow_split64 k K).
    replace (LB ^ (k / 64) * 2 ^ (k mod 64) * q) with ((2 ^ (k mod 64) * q) * LB ^ (k / 64)) by ring.
    apply Z.div_mul. clear - P1; lia. }
  assert (P2 : 0 < 2 ^ (k mod 64)) by (apply Z.pow_pos_nonneg; lia).
  assert (SN : s <> []).
  { intros R. rewrite R, dval_nil in SV'. clear - P2 PQ SV'. nia. }
  assert (ST : top s <> 0).
  { assert (LL : (z < length l)%nat).
    { destruct (Nat.lt_ge_cases z (length l)) as [|G]; [assumption|].
      exfalso. apply SN. apply skipn_all2. assumption. }
    unfold top in *. subst s.
    rewrite <- (firstn_skipn z l), last_app_r in T by exact SN. exact T. }
  destruct (k mod 64 =? 0) eqn:E0.
  - apply Z.eqb_eq in E0. rewrite E0, Z.pow_0_r, Z.mul_1_l in SV'. auto.
  - destruct (rshift_ok s (k mod 64) SO ltac:(lia)) as [RO RV].
    assert (RQ : dval LB (mpn_rshift s (k mod 64)) = q).
    { rewrite RV, SV', Z.mul_comm. apply Z.div_mul. clear - P2; lia. }
    assert (RL : length (mpn_rshift s (k mod 64)) = length s) by apply to_digits_length.
    assert (B : LB ^ (Z.of_nat (length s) - 2) <= q).
    { pose proof (top_nonzero_bound s SO SN ST) as SB.
      assert (SL : (1 <= length s)%nat) by (destruct s; [congruence|cbn [length]; lia]).
      rewrite SV' in SB.
      destruct (Nat.eq_dec (length s) 1) as [S1|S1].
      - rewrite S1. change (LB ^ (Z.of_nat 1 - 2)) with 0. clear - PQ; lia.
      - replace (Z.of_nat (length s) - 1) with ((Z.of_nat (length s) - 2) + 1) in SB by lia.
        rewrite Z.pow_add_r, Z.pow_1_r in SB by lia.
        assert (P3 : 0 < LB ^ (Z.of_nat (length s) - 2)) by (apply Z.pow_pos_nonneg; [apply LB0|lia]).
        assert (P4 : 2 ^ (k mod 64) < LB) by (apply Z.pow_lt_mono_r; lia).
        clear - SB P3 P4 P2 PQ. set (M := LB ^ (Z.of_nat (length s) - 2)) in *. clearbody M.
        set (t := 2 ^ (k mod 64)) in *. clearbody t. nia. }
    rewrite <- RL in B.
    assert (RN : mpn_rshift s (k mod 64) <> []).
    { intros R. rewrite R in RL. destruct s; [congruence|discriminate]. }
    destruct (strip1_top_bound _ q RO RN RQ PQ B) as [T1 T2].
    split; [apply strip1_ok, RO|]. split; [rewrite strip1_dval; exact RQ|]. auto.
Qed.

Lemma mpn_gcd_ok u v : digits_ok LB u -> digits_ok LB v -> v <> [] -> top v <> 0 -> Z.odd (dval LB v) = true ->
  Z.log2 (dval LB v) <= Z.log2 (dval LB u) ->
  exists g, mpn_gcd u v = Ok g /\ digits_ok LB g /\ dval LB g = Z.gcd (dval LB u) (dval LB v).
Proof.
  intros Ou Ov N T O L. unfold mpn_gcd. rewrite <- Z.negb_odd, O.
  replace (top v =? 0) with false by lia. replace (_ <? _) with false by lia. cbn [negb orb].
  eexists. split; [reflexivity|]. split; [apply strip_ok, todig_ok|].
  rewrite strip_dval. apply todig_small. pose proof (dval_bound LB v LB_gt1 Ov).
  split; [apply Z.gcd_nonneg|].
  pose proof (top_nonzero_bound v Ov N T).
  assert (0 < dval LB v).
  { destruct (Z.eq_dec (dval LB v) 0) as [E|E]; [rewrite E in O; discriminate|lia]. }
  apply Z.le_lt_trans with (dval LB v); [|apply H].
  apply Z.divide_pos_le; [assumption|apply Z.gcd_divide_r].
Qed.

Lemma single l : length l = 1%nat -> dval LB l = top l.
Proof. destruct l as [|x [|]]; try discriminate. intros _. rewrite dval_cons, dval_nil. cbn [top last]. lia. Qed.

Lemma abs_eq_gcd a b : Z.gcd a b = Z.gcd (Z.abs a) (Z.abs b).
Proof. rewrite Z.gcd_abs_l, Z.gcd_abs_r. reflexivity. Qed.

Lemma gcd_args u v a b : arg_ok u a -> arg_ok v b -> a <> 0 -> b <> 0 ->
  exists r, mpz_gcd u v = Ok r /\ res_ok r (Z.gcd a b).
Proof.
  intros (A1 & A2 & A3 & A4 & A5) (B1 & B2 & B3 & B4 & B5) NA NB.
  pose proof (dval_bound LB _ LB_gt1 A1) as DA. pose proof (dval_bound LB _ LB_gt1 B1) as DB.
  unfold mpz_gcd. rewrite abs_eq_gcd. rewrite <- A4, <- B4.
  assert (PA : 0 < dval LB (m_limbs u)) by lia. assert (PB : 0 < dval LB (m_limbs v)) by lia.
  set (up := m_limbs u) in *. set (vp := m_limbs v) in *.
  assert (EU : (length up =? 0)%nat = false) by (destruct up; [congruence|reflexivity]).
  assert (EV : (length vp =? 0)%nat = false) by (destruct vp; [congruence|reflexivity]).
  rewrite EU, EV. cbn [orb].
  destruct ((length vp =? 1)%nat && (top vp =? 1)) eqn:C1.
  { apply andb_prop in C1. destruct C1 as [C1 C2]. apply Nat.eqb_eq in C1. apply Z.eqb_eq in C2.
    pose proof (single vp C1) as S. eexists. split; [reflexivity|]. apply mk_res; [assumption|].
    fold vp. rewrite S, C2. symmetry. apply Z.gcd_1_r. }
  destruct ((length up =? 1)%nat && (top up =? 1)) eqn:C2.
  { apply andb_prop in C2. destruct C2 as [C2 C3]. apply Nat.eqb_eq in C2. apply Z.eqb_eq in C3.
    pose proof (single up C2) as S. eexists. split; [reflexivity|]. apply mk_res; [assumption|].
    fold up. rewrite S, C3. symmetry. apply Z.gcd_1_l. }
  assert (G1 : forall x y, 0 < x < LB -> digits_ok LB [Z.gcd y x]).
  { intros x y X. repeat constructor; [apply Z.gcd_nonneg|].
    apply Z.le_lt_trans with x; [|apply X]. apply Z.divide_pos_le; [apply X|apply Z.gcd_divide_r]. }
  destruct (length up =? 1)%nat eqn:L1.
  { apply Nat.eqb_eq in L1. pose proof (single up L1) as S. unfold mpn_gcd_1.
    replace (dval LB vp =? 0) with false by (clear - PB; lia).
    replace (top up =? 0) with false by (clear - PA S; lia). cbn [orb obind].
    eexists. split; [reflexivity|]. apply mk_res.
    - apply G1. rewrite L1 in DA. change (LB ^ Z.of_nat 1) with LB in DA. clear - PA S DA. lia.
    - rewrite dval_cons, dval_nil, S, Z.gcd_comm. ring. }
  destruct (length vp =? 1)%nat eqn:L2.
  { apply Nat.eqb_eq in L2. pose proof (single vp L2) as S. unfold mpn_gcd_1.
    replace (dval LB up =? 0) with false by (clear - PA; lia).
    replace (top vp =? 0) with false by (clear - PB S; lia). cbn [orb obind].
    eexists. split; [reflexivity|]. apply mk_res.
    - apply G1. rewrite L2 in DB. change (LB ^ Z.of_nat 1) with LB in DB. clear - PB S DB. lia.
    - rewrite dval_cons, dval_nil, S. ring. }
  assert (TA : top up <> 0) by (destruct A3 as [A3|A3]; [rewrite A3 in L1; discriminate|assumption]).
  assert (TB : top vp <> 0) by (destruct B3 as [B3|B3]; [rewrite B3 in L2; discriminate|assumption]).
  destruct (strip_low_ok up A1 A2 TA) as (i & p & pl & I & EP & VP & OP & PP & POK & PV & PN & PT).
  destruct (strip_low_ok vp B1 B2 TB) as (j & q & ql & J & EQ & VQ & OQ & PQ & QOK & QV & QN & QT).
  change (exists r : mpz,
    (olet (up, (uzl, uzb)) := strip_low up in
     olet (vp, (vzl, vzb)) := strip_low vp in
    let (gzl, gzb) :=
      if uzl >? vzl then (vzl, vzb)
      else if uzl <? vzl then (uzl, uzb)
      else (uzl, Z.min uzb vzb) in
    olet g :=
      if (length up <? length vp)%nat || ((length up =? length vp)%nat && (top up <? top vp))
      then mpn_gcd vp up else mpn_gcd up vp in
    let z := repeat 0 (Z.to_nat gzl) in
    if gzb =? 0 then Ok (mk false (z ++ g))
    else let (r, cy) := mpn_lshift g gzb in
         Ok (mk false (z ++ r ++ if cy =? 0 then [] else [cy]))) = Ok r /\
    res_ok r (Z.gcd (dval LB up) (dval LB vp))).
  rewrite EP. cbn [obind]. rewrite EQ. cbn [obind].
  assert (GZ : (if i / 64 >? j / 64 then (j / 64, j mod 64)
    else if i / 64 <? j / 64 then (i / 64, i mod 64) else (i / 64, Z.min (i mod 64) (j mod 64)))
    = (Z.min i j / 64, Z.min i j mod 64)).
  { clear - I J. destruct (i / 64 >? j / 64) eqn:X; [|destruct (i / 64 <? j / 64) eqn:Y]; f_equal; lia. }
  rewrite GZ. set (m := Z.min i j). assert (M : 0 <= m) by (clear - I J; lia).
  assert (GG : exists g, (if (length pl <? length ql)%nat || ((length pl =? length ql)%nat && (top pl <? top ql))
      then mpn_gcd ql pl else mpn_gcd pl ql) = Ok g /\ digits_ok LB g /\ dval LB g = Z.gcd p q).
  { pose proof (log2_top pl POK PN PT) as LP. pose proof (log2_top ql QOK QN QT) as LQ.
    rewrite <- PV, <- QV in *.
    pose proof (top_ok LB _ LB0 POK) as TP. pose proof (top_ok LB _ LB0 QOK) as TQ.
    assert (Z.log2 (top pl) < 64) by (apply Z.log2_lt_pow2; [clear - TP PT; lia|apply TP]).
    assert (Z.log2 (top ql) < 64) by (apply Z.log2_lt_pow2; [clear - TQ QT; lia|apply TQ]).
    pose proof (Z.log2_nonneg (top pl)). pose proof (Z.log2_nonneg (top ql)).
    destruct (_ || _) eqn:C.
    - rewrite Z.gcd_comm. apply mpn_gcd_ok; auto. rewrite LP, LQ.
      apply orb_prop in C. destruct C as [C|C].
      + clear - C H H0 H1 H2. lia.
      + apply andb_prop in C. destruct C as [C D]. apply Nat.eqb_eq in C. rewrite C.
        pose proof (Z.log2_le_mono (top pl) (top ql) ltac:(clear - D; lia)). lia.
    - apply mpn_gcd_ok; auto. rewrite LP, LQ.
      apply orb_false_iff in C. destruct C as [C D].
      destruct (length pl =? length ql)%nat eqn:E.
      + apply Nat.eqb_eq in E. rewrite E. cbn [andb] in D.
        pose proof (Z.log2_le_mono (top ql) (top pl) ltac:(clear - D; lia)). lia.
      + clear - C E H H0 H1 H2. lia. }
  destruct GG as (g & -> & GO & GV). cbn [obind]. cbv zeta.
  assert (P1 : 0 < LB ^ (m / 64)) by (apply Z.pow_pos_nonneg; [apply LB0|clear - M; lia]).
  assert (OZ : digits_ok LB (repeat 0 (Z.to_nat (m / 64)))) by (apply digits_ok_repeat; unfold LB; lia).
  assert (VG : Z.gcd (dval LB up) (dval LB vp) = LB ^ (m / 64) * 2 ^ (m mod 64) * dval LB g).
  { rewrite VP, VQ, gcd_pow2, GV by assumption. fold m. rewrite (pow_split64 m M). reflexivity. }
  assert (VL : forall l, dval LB (repeat 0 (Z.to_nat (m / 64)) ++ l) = LB ^ (m / 64) * dval LB l).
  { intros l. rewrite dval_app, dval_repeat0, repeat_length, Z2Nat.id by (apply Z.div_pos; clear - M; lia). lia. }
  destruct (m mod 64 =? 0) eqn:E0.
  - eexists. split; [reflexivity|]. apply mk_res; [apply digits_ok_app; auto|].
    apply Z.eqb_eq in E0. rewrite VL, VG, E0, Z.pow_0_r. ring.
  - pose proof (lshift_ok g (m mod 64) GO ltac:(clear - M; lia)) as LS.
    destruct (mpn_lshift g (m mod 64)) as [r d]. destruct LS as [RA RB].
    eexists. split; [reflexivity|]. apply mk_res; [apply digits_ok_app; auto|].
    rewrite VL, RB, VG. ring.
Qed.
