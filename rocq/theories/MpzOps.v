From Verif Require Import Base Digits IntRep IntRepProofs Mpz MpzSpec MpzProofs.

#[local] Hint Resolve LB_gt1 : core.

Definition norm (l : list Z) : Prop := (length l <= 1)%nat \/ top l <> 0.

Lemma LB0 : 0 < LB. Proof. reflexivity. Qed.

Lemma todig_ok n z : digits_ok LB (to_digits LB n z).
Proof. apply to_digits_ok, LB0. Qed.

Lemma todig_small n z : 0 <= z < LB ^ Z.of_nat n -> dval LB (to_digits LB n z) = z.
Proof. intros. rewrite to_digits_val by apply LB0. apply Z.mod_small. assumption. Qed.

Lemma norm_longer u v : digits_ok LB u -> digits_ok LB v -> norm u ->
  (length v < length u)%nat -> dval LB v <= dval LB u.
Proof.
  intros Ou Ov N L. pose proof (dval_bound LB u LB_gt1 Ou). pose proof (dval_bound LB v LB_gt1 Ov) as BV.
  destruct N as [N|N].
  - assert (v = []) by (destruct v; [reflexivity|cbn [length] in *; lia]). subst v. rewrite dval_nil. lia.
  - assert (UN : u <> []) by (intros ->; cbn [length] in L; lia).
    pose proof (top_nonzero_bound u Ou UN N).
    assert (LB ^ Z.of_nat (length v) <= LB ^ (Z.of_nat (length u) - 1)).
    { apply Z.pow_le_mono_r; [apply LB0|lia]. }
    lia.
Qed.

Lemma shorter_lt u d : digits_ok LB u -> digits_ok LB d -> d <> [] -> top d <> 0 ->
  (length u < length d)%nat -> dval LB u < dval LB d.
Proof.
  intros Ou Od N T L. pose proof (dval_bound LB u LB_gt1 Ou) as B.
  pose proof (top_nonzero_bound d Od N T) as TB.
  assert (LB ^ Z.of_nat (length u) <= LB ^ (Z.of_nat (length d) - 1))
    by (apply Z.pow_le_mono_r; [apply LB0|lia]).
  lia.
Qed.

Lemma mod_abs_bound a b : b <> 0 -> 0 <= Z.abs a mod Z.abs b < Z.abs b.
Proof. intros. apply Z.mod_pos_bound. lia. Qed.

Lemma quot_len a b (n d : nat) : 0 <= a < LB ^ Z.of_nat n -> LB ^ (Z.of_nat d - 1) <= b ->
  (1 <= d <= n)%nat -> 0 <= a / b < LB ^ Z.of_nat (n - d + 1).
Proof.
  intros A B L. assert (P : 0 < LB ^ (Z.of_nat d - 1)) by (apply Z.pow_pos_nonneg; [apply LB0|lia]).
  split; [apply Z.div_pos; lia|]. apply Z.div_lt_upper_bound; [lia|].
  eapply Z.lt_le_trans; [apply A|].
  replace (Z.of_nat n) with ((Z.of_nat d - 1) + Z.of_nat (n - d + 1)) by lia.
  rewrite Z.pow_add_r by lia.
  apply Z.mul_le_mono_nonneg_r; [apply Z.pow_nonneg; pose proof LB0; lia|assumption].
Qed.

Lemma carry_limb s n cy : 0 <= s < 2 * LB ^ n -> 0 <= n -> cy = s / LB ^ n ->
  let c := if cy =? 0 then [] else [1] in
  digits_ok LB c /\ s mod LB ^ n + LB ^ n * dval LB c = s.
Proof.
  intros H N ->. assert (P : 0 < LB ^ n) by (apply Z.pow_pos_nonneg; [apply LB0|assumption]).
  set (M := LB ^ n) in *. clearbody M.
  pose proof (Z.div_mod s M ltac:(lia)).
  assert (Q : s / M = 0 \/ s / M = 1).
  { assert (0 <= s / M) by (apply Z.div_pos; lia).
    assert (s / M < 2) by (apply Z.div_lt_upper_bound; lia). lia. }
  destruct Q as [Q|Q]; rewrite Q in *; cbn [Z.eqb].
  - split; [constructor|rewrite dval_nil; lia].
  - split; [repeat constructor; unfold LB; lia|]. rewrite dval_cons, dval_nil. lia.
Qed.

Lemma mpz_add_ok u v :
  digits_ok LB (m_limbs u) -> digits_ok LB (m_limbs v) ->
  ((length (m_limbs v) < length (m_limbs u))%nat -> dval LB (m_limbs v) <= dval LB (m_limbs u)) ->
  ((length (m_limbs u) < length (m_limbs v))%nat -> dval LB (m_limbs u) <= dval LB (m_limbs v)) ->
  exists r, mpz_add u v = Ok r /\ res_ok r (mval u + mval v).
Proof.
  intros Ou Ov Huv Hvu. unfold mpz_add.
  assert (SW : exists u' v', (if (length (m_limbs u) <? length (m_limbs v))%nat then (v, u) else (u, v)) = (u', v') /\
    digits_ok LB (m_limbs u') /\ digits_ok LB (m_limbs v') /\
    (length (m_limbs v') <= length (m_limbs u'))%nat /\
    ((length (m_limbs v') < length (m_limbs u'))%nat -> dval LB (m_limbs v') <= dval LB (m_limbs u')) /\
    mval u' + mval v' = mval u + mval v).
  { destruct (length (m_limbs u) <? length (m_limbs v))%nat eqn:E;
      [exists v, u|exists u, v]; repeat split; try assumption; try lia. }
  destruct SW as (u' & v' & -> & Ou' & Ov' & L & D & V). rewrite <- V. clear dependent u. clear dependent v.
  rename u' into u, v' into v.
  destruct u as [nu lu], v as [nv lv]. cbn [m_limbs m_neg] in *. unfold mval. cbn [m_limbs m_neg].
  pose proof (dval_bound LB lu LB_gt1 Ou') as BU. pose proof (dval_bound LB lv LB_gt1 Ov') as BV.
  assert (PP : LB ^ Z.of_nat (length lv) <= LB ^ Z.of_nat (length lu)).
  { apply Z.pow_le_mono_r; [apply LB0|lia]. }
  destruct (Bool.eqb nu nv) eqn:E.
  - apply eqb_prop in E. subst nv. unfold mpn_add.
    set (s := dval LB lu + dval LB lv).
    destruct (carry_limb s (Z.of_nat (length lu)) _ ltac:(lia) ltac:(lia) eq_refl) as [CO CV].
    eexists. split; [reflexivity|]. apply mk_res.
    + apply digits_ok_app. split; [apply todig_ok|exact CO].
    + rewrite dval_app, to_digits_length, to_digits_val by apply LB0. rewrite CV. destruct nu; lia.
  - apply eqb_false_iff in E.
    destruct ((length lu =? length lv)%nat && (dval LB lu <? dval LB lv)) eqn:C.
    + unfold mpn_sub. replace (dval LB lv - dval LB lu <? 0) with false by lia.
      eexists. split; [reflexivity|]. apply mk_res; [apply todig_ok|].
      rewrite todig_small by lia. destruct nu, nv; try congruence; lia.
    + assert (dval LB lv <= dval LB lu) by lia.
      unfold mpn_sub. replace (dval LB lu - dval LB lv <? 0) with false by lia.
      eexists. split; [reflexivity|]. apply mk_res; [apply todig_ok|].
      rewrite todig_small by lia. destruct nu, nv; try congruence; lia.
Qed.

Lemma arg_norm m z : arg_ok m z -> norm (m_limbs m).
Proof. intros (_ & _ & [H|H] & _); [left; lia|right; assumption]. Qed.

Lemma arg_mval m z : arg_ok m z -> mval m = z.
Proof. intros H. apply arg_res in H. apply H. Qed.

Lemma arg_digits m z : arg_ok m z -> digits_ok LB (m_limbs m).
Proof. intros H. apply H. Qed.

Lemma add_args u v a b : arg_ok u a -> arg_ok v b ->
  exists r, mpz_add u v = Ok r /\ res_ok r (a + b).
Proof.
  intros A B. rewrite <- (arg_mval _ _ A), <- (arg_mval _ _ B).
  apply mpz_add_ok; try (eapply arg_digits; eassumption);
    intros L; apply norm_longer; try (eapply arg_digits; eassumption); try (eapply arg_norm; eassumption); assumption.
Qed.

Lemma mk_limbs n l : m_limbs (mk n l) = l.
Proof. destruct l; reflexivity. Qed.

Lemma mval_mk (n : bool) l : mval (mk n l) = if n then - dval LB l else dval LB l.
Proof. destruct l; [|reflexivity]. unfold mval. cbn. destruct n; reflexivity. Qed.

Lemma mval_neg v : mval (mk (negb (m_neg v)) (m_limbs v)) = - mval v.
Proof. rewrite mval_mk. unfold mval. destruct (m_neg v); cbn [negb]; lia. Qed.

Lemma sub_args u v a b : arg_ok u a -> arg_ok v b ->
  exists r, mpz_sub u v = Ok r /\ res_ok r (a - b).
Proof.
  intros A B. unfold mpz_sub.
  replace (a - b) with (mval u + mval (mk (negb (m_neg v)) (m_limbs v)))
    by (rewrite mval_neg, (arg_mval _ _ A), (arg_mval _ _ B); lia).
  apply mpz_add_ok; rewrite ?mk_limbs; try (eapply arg_digits; eassumption);
    intros L; apply norm_longer; try (eapply arg_digits; eassumption); try (eapply arg_norm; eassumption); assumption.
Qed.

Lemma neg_args v b : arg_ok v b -> exists r, mpz_sub (mk false []) v = Ok r /\ res_ok r (- b).
Proof.
  intros B. unfold mpz_sub.
  replace (- b) with (mval (mk false []) + mval (mk (negb (m_neg v)) (m_limbs v)))
    by (rewrite mval_neg, (arg_mval _ _ B); cbn; lia).
  apply mpz_add_ok; rewrite ?mk_limbs; try (eapply arg_digits; eassumption); try constructor.
  - cbn [length]. lia.
  - intros L. rewrite dval_nil. pose proof (dval_bound LB _ LB_gt1 (arg_digits _ _ B)). lia.
Qed.

Lemma mul_args u v a b : arg_ok u a -> arg_ok v b ->
  exists r, mpz_mul u v = Ok r /\ res_ok r (a * b).
Proof.
  intros (A1 & A2 & _ & A4 & A5) (B1 & B2 & _ & B4 & B5). unfold mpz_mul.
  set (neg := xorb (m_neg u) (m_neg v)).
  assert (SW : exists u' v', (if (length (m_limbs u) <? length (m_limbs v))%nat then (v, u) else (u, v)) = (u', v') /\
    digits_ok LB (m_limbs u') /\ digits_ok LB (m_limbs v') /\ m_limbs u' <> [] /\ m_limbs v' <> [] /\
    dval LB (m_limbs u') * dval LB (m_limbs v') = Z.abs a * Z.abs b).
  { destruct (_ <? _)%nat; [exists v, u|exists u, v]; rewrite ?A4, ?B4; repeat split; auto; lia. }
  destruct SW as (u' & v' & -> & Ou & Ov & Nu & Nv & V).
  unfold mpn_mul. destruct (m_limbs u') as [|x lu] eqn:EU; [congruence|].
  destruct (m_limbs v') as [|y lv] eqn:EV; [congruence|]. cbn [obind].
  eexists. split; [reflexivity|]. apply mk_res; [apply todig_ok|].
  pose proof (dval_bound LB _ LB_gt1 Ou). pose proof (dval_bound LB _ LB_gt1 Ov).
  rewrite todig_small, V.
  - subst neg. rewrite A5, B5. destruct (a <? 0) eqn:?, (b <? 0) eqn:?; cbn [xorb]; lia.
  - rewrite Nat2Z.inj_add, Z.pow_add_r by lia. nia.
Qed.

(** Comparison *)
Lemma cmp_args u v a b : arg_ok u a -> arg_ok v b -> mpz_cmp u v = Z.sgn (a - b).
Proof.
  intros A B. pose proof (arg_norm _ _ A) as NA. pose proof (arg_norm _ _ B) as NB.
  destruct A as (A1 & A2 & A3 & A4 & A5), B as (B1 & B2 & B3 & B4 & B5). unfold mpz_cmp, msize.
  set (lu := m_limbs u) in *. set (lv := m_limbs v) in *.
  assert (LU : (1 <= length lu)%nat) by (destruct lu; [congruence|cbn [length]; lia]).
  assert (LV : (1 <= length lv)%nat) by (destruct lv; [congruence|cbn [length]; lia]).
  assert (K : forall x y, digits_ok LB x -> digits_ok LB y -> norm x -> (1 <= length y)%nat -> (length y < length x)%nat -> dval LB y < dval LB x).
  { intros x y Ox Oy [N|N] Ly L; [lia|].
    assert (XN : x <> []) by (intros ->; cbn [length] in L; lia).
    pose proof (top_nonzero_bound x Ox XN N). pose proof (dval_bound LB y LB_gt1 Oy).
    assert (LB ^ Z.of_nat (length y) <= LB ^ (Z.of_nat (length x) - 1)).
    { apply Z.pow_le_mono_r; [apply LB0|lia]. } lia. }
  rewrite A5, B5. destruct (a <? 0) eqn:EA, (b <? 0) eqn:EB.
  - destruct (- Z.of_nat (length lu) =? - Z.of_nat (length lv)) eqn:E; [f_equal; lia|].
    assert (length lu < length lv \/ length lv < length lu)%nat as [L|L] by lia;
      [specialize (K lv lu B1 A1 NB LU L)|specialize (K lu lv A1 B1 NA LV L)];
      rewrite ?(Z.sgn_neg (a - b)), ?(Z.sgn_pos (a - b)) by lia;
      [apply Z.sgn_pos|apply Z.sgn_neg]; lia.
  - replace (_ =? _) with false by lia. rewrite (Z.sgn_neg (a - b)) by lia. apply Z.sgn_neg. lia.
  - replace (_ =? _) with false by lia. rewrite (Z.sgn_pos (a - b)) by lia. apply Z.sgn_pos. lia.
  - destruct (Z.of_nat (length lu) =? Z.of_nat (length lv)) eqn:E; [f_equal; lia|].
    assert (length lu < length lv \/ length lv < length lu)%nat as [L|L] by lia;
      [specialize (K lv lu B1 A1 NB LU L)|specialize (K lu lv A1 B1 NA LV L)];
      rewrite ?(Z.sgn_neg (a - b)), ?(Z.sgn_pos (a - b)) by lia;
      [apply Z.sgn_neg|apply Z.sgn_pos]; lia.
Qed.

(** Small increments *)
Lemma sub_ui_ok m sub : digits_ok LB (m_limbs m) -> 0 <= sub < LB -> (m_neg m = true \/ m_limbs m = []) ->
  exists r, mpz_sub_ui m sub = Ok r /\ res_ok r (mval m - sub).
Proof.
  intros O S N. unfold mpz_sub_ui. destruct (sub =? 0) eqn:E0.
  { exists m. split; [reflexivity|]. split; [assumption|lia]. }
  destruct m as [n l]. cbn [m_limbs m_neg] in *. destruct l as [|x l].
  { eexists. split; [reflexivity|]. apply mk_res; [repeat constructor; lia|].
    unfold mval. cbn [m_neg m_limbs]. rewrite dval_cons, !dval_nil. destruct n; lia. }
  destruct N as [->|N]; [|discriminate]. unfold mpn_add_1.
  set (l' := x :: l) in *. set (s := dval LB l' + sub).
  pose proof (dval_bound LB l' LB_gt1 O) as BL.
  assert (LB <= LB ^ Z.of_nat (length l')).
  { rewrite <- (Z.pow_1_r LB) at 1. apply Z.pow_le_mono_r; [apply LB0|subst l'; cbn [length]; lia]. }
  destruct (carry_limb s (Z.of_nat (length l')) _ ltac:(lia) ltac:(lia) eq_refl) as [CO CV].
  eexists. split; [reflexivity|]. apply mk_res.
  + apply digits_ok_app. split; [apply todig_ok|exact CO].
  + rewrite dval_app, to_digits_length, to_digits_val by apply LB0. rewrite CV.
    unfold mval. cbn [m_neg m_limbs]. lia.
Qed.

Lemma add1_ok l : digits_ok LB l -> l <> [] -> digits_ok LB (add1 l) /\ dval LB (add1 l) = dval LB l + 1.
Proof.
  intros O N. unfold add1, mpn_add_1. set (s := dval LB l + 1).
  pose proof (dval_bound LB l LB_gt1 O) as BL.
  destruct (carry_limb s (Z.of_nat (length l)) _ ltac:(lia) ltac:(lia) eq_refl) as [CO CV].
  assert (P : 0 < LB ^ Z.of_nat (length l)) by apply LB_pos.
  assert (Q : s / LB ^ Z.of_nat (length l) = 0 \/ s / LB ^ Z.of_nat (length l) = 1).
  { assert (0 <= s / LB ^ Z.of_nat (length l)) by (apply Z.div_pos; lia).
    assert (s / LB ^ Z.of_nat (length l) < 2) by (apply Z.div_lt_upper_bound; lia). lia. }
  replace (if s / LB ^ Z.of_nat (length l) =? 0 then [] else [s / LB ^ Z.of_nat (length l)])
    with (if s / LB ^ Z.of_nat (length l) =? 0 then [] else [1]) by (destruct Q as [-> | ->]; reflexivity).
  split.
  - apply digits_ok_app. split; [apply todig_ok|exact CO].
  - rewrite dval_app, to_digits_length, to_digits_val by apply LB0. rewrite CV. reflexivity.
Qed.

Lemma sub1_ok l : digits_ok LB l -> 1 <= dval LB l ->
  digits_ok LB (sub1 l) /\ dval LB (sub1 l) = dval LB l - 1 /\ length (sub1 l) = length l.
Proof.
  intros O H. unfold sub1, mpn_sub_1. cbn [fst]. pose proof (dval_bound LB l LB_gt1 O).
  split; [apply todig_ok|]. split; [apply todig_small; lia|apply to_digits_length].
Qed.

Lemma com_args m z : arg_ok m z -> exists r, mpz_com m = Ok r /\ res_ok r (Z.lnot z).
Proof.
  intros (A1 & A2 & _ & A4 & A5). unfold mpz_com. rewrite A5.
  replace (Z.lnot z) with (- z - 1) by (unfold Z.lnot; lia).
  pose proof (dval_bound LB _ LB_gt1 A1).
  destruct (z <? 0) eqn:E.
  - unfold mpn_sub_1. replace (_ <? 0) with false by lia. eexists. split; [reflexivity|].
    apply mk_res; [apply todig_ok|]. rewrite todig_small by lia. lia.
  - destruct (m_limbs m) as [|x l] eqn:EL; [congruence|].
    destruct (add1_ok (x :: l) A1 A2) as [B1 B2]. unfold add1 in *.
    destruct (mpn_add_1 (x :: l) 1) as [r cy]. eexists. split; [reflexivity|].
    apply mk_res; [exact B1|]. rewrite B2. lia.
Qed.

(** Shifts *)
Lemma dval_skipn n l : digits_ok LB l -> dval LB (skipn n l) = dval LB l / LB ^ Z.of_nat n.
Proof.
  intros O. destruct (Nat.le_gt_cases n (length l)) as [L|L].
  - rewrite (dval_split LB n l L).
    pose proof (dval_bound LB (firstn n l) LB_gt1 (digits_ok_firstn LB n l O)) as B.
    rewrite firstn_length_le in B by assumption.
    pose proof (LB_pos n). rewrite Z.add_comm, Z.mul_comm, Z.div_add_l by lia.
    rewrite Z.div_small by lia. lia.
  - rewrite skipn_all2 by lia. rewrite dval_nil. symmetry. apply Z.div_small.
    pose proof (dval_bound LB l LB_gt1 O).
    assert (LB ^ Z.of_nat (length l) <= LB ^ Z.of_nat n) by (apply Z.pow_le_mono_r; [apply LB0|lia]). lia.
Qed.

Lemma pow_split64 cnt : 0 <= cnt -> 2 ^ cnt = LB ^ (cnt / 64) * 2 ^ (cnt mod 64).
Proof.
  intros H. rewrite LBpow2 by (apply Z.div_pos; lia). rewrite <- Z.pow_add_r by lia. f_equal. lia.
Qed.

Lemma rshift_ok l c : digits_ok LB l -> 0 <= c ->
  digits_ok LB (mpn_rshift l c) /\ dval LB (mpn_rshift l c) = dval LB l / 2 ^ c.
Proof.
  intros O C. unfold mpn_rshift. split; [apply todig_ok|]. apply todig_small.
  pose proof (dval_bound LB l LB_gt1 O).
  assert (0 < 2 ^ c) by (apply Z.pow_pos_nonneg; lia).
  split; [apply Z.div_pos; lia|]. apply Z.div_lt_upper_bound; nia.
Qed.

Lemma shift_right_limbs l cnt : digits_ok LB l -> 0 <= cnt ->
  let l' := skipn (Z.to_nat (cnt / 64)) l in
  let r := strip1 (if cnt mod 64 =? 0 then l' else mpn_rshift l' (cnt mod 64)) in
  digits_ok LB r /\ dval LB r = dval LB l / 2 ^ cnt.
Proof.
  intros O C. cbv zeta.
  pose proof (digits_ok_skipn LB (Z.to_nat (cnt / 64)) l O) as OS.
  pose proof (dval_skipn (Z.to_nat (cnt / 64)) l O) as VS.
  rewrite Z2Nat.id in VS by (apply Z.div_pos; lia).
  assert (P1 : 0 < LB ^ (cnt / 64)) by (apply Z.pow_pos_nonneg; [apply LB0|apply Z.div_pos; lia]).
  assert (P2 : 0 < 2 ^ (cnt mod 64)) by (apply Z.pow_pos_nonneg; [lia|apply Z.mod_pos_bound; lia]).
  rewrite (pow_split64 cnt C), <- Z.div_div by lia.
  destruct (cnt mod 64 =? 0) eqn:E.
  - split; [apply strip1_ok, OS|]. rewrite strip1_dval, VS.
    apply Z.eqb_eq in E. rewrite E, Z.pow_0_r, Z.div_1_r. reflexivity.
  - destruct (rshift_ok _ (cnt mod 64) OS ltac:(lia)) as [A B].
    split; [apply strip1_ok, A|]. rewrite strip1_dval, B, VS. reflexivity.
Qed.

Lemma div_2exp_ok m cnt z : res_ok m z -> 0 <= cnt -> res_ok (mpz_div_2exp m cnt) (Z.quot z (2 ^ cnt)).
Proof.
  intros [O V] C. unfold mpz_div_2exp.
  assert (P : 0 < 2 ^ cnt) by (apply Z.pow_pos_nonneg; lia).
  pose proof (dval_bound LB _ LB_gt1 O) as BD.
  assert (Q : Z.quot z (2 ^ cnt) = if m_neg m then - (dval LB (m_limbs m) / 2 ^ cnt) else dval LB (m_limbs m) / 2 ^ cnt).
  { rewrite <- V. unfold mval. destruct (m_neg m).
    - rewrite Z.quot_opp_l by lia. rewrite Z.quot_div_nonneg by lia. reflexivity.
    - rewrite Z.quot_div_nonneg by lia. reflexivity. }
  destruct (shift_right_limbs (m_limbs m) cnt O C) as [A B].
  destruct (skipn (Z.to_nat (cnt / 64)) (m_limbs m)) as [|x l] eqn:E.
  - apply mk_res; [constructor|]. rewrite Q, <- B.
    destruct (cnt mod 64 =? 0); cbn; destruct (m_neg m); reflexivity.
  - apply mk_res; [exact A|]. rewrite B, Q. reflexivity.
Qed.

Lemma lshift_ok l c : digits_ok LB l -> 0 <= c < 64 ->
  let (r, d) := mpn_lshift l c in
  digits_ok LB (r ++ if d =? 0 then [] else [d]) /\
  dval LB (r ++ if d =? 0 then [] else [d]) = dval LB l * 2 ^ c.
Proof.
  intros O C. unfold mpn_lshift. cbv beta iota zeta.
  pose proof (dval_bound LB l LB_gt1 O) as B.
  assert (P : 0 < 2 ^ c < LB).
  { split; [apply Z.pow_pos_nonneg; lia|]. apply Z.pow_lt_mono_r; lia. }
  set (s := dval LB l * 2 ^ c) in *. set (M := LB ^ Z.of_nat (length l)) in *.
  assert (PM : 0 < M) by apply LB_pos.
  assert (0 <= s < M * LB) by (subst s; nia).
  assert (D : 0 <= s / M < LB) by (split; [apply Z.div_pos; lia|apply Z.div_lt_upper_bound; lia]).
  pose proof (Z.div_mod s M ltac:(lia)) as DM.
  split.
  - apply digits_ok_app. split; [apply todig_ok|]. destruct (_ =? 0); repeat constructor; lia.
  - rewrite dval_app, to_digits_length, to_digits_val by apply LB0. fold M.
    destruct (s / M =? 0) eqn:E; rewrite ?dval_cons, dval_nil; lia.
Qed.

Lemma mul_2exp_ok m cnt z : res_ok m z -> 0 <= cnt -> res_ok (mpz_mul_2exp m cnt) (z * 2 ^ cnt).
Proof.
  intros [O V] C. unfold mpz_mul_2exp.
  destruct (m_limbs m) as [|x l] eqn:E.
  { apply mk_res; [constructor|]. unfold mval in V. rewrite E in V. cbn in V. destruct (m_neg m); subst z; reflexivity. }
  rewrite (pow_split64 cnt C).
  assert (P1 : 0 < LB ^ (cnt / 64)) by (apply Z.pow_pos_nonneg; [apply LB0|apply Z.div_pos; lia]).
  assert (OZ : digits_ok LB (repeat 0 (Z.to_nat (cnt / 64)))) by (apply digits_ok_repeat; unfold LB; lia).
  unfold mval in V. rewrite E in V.
  destruct (cnt mod 64 =? 0) eqn:E0.
  - apply mk_res; [apply digits_ok_app; auto|]. rewrite dval_app, dval_repeat0, repeat_length, Z2Nat.id by (apply Z.div_pos; lia).
    apply Z.eqb_eq in E0. rewrite E0, Z.pow_0_r. destruct (m_neg m); nia.
  - pose proof (lshift_ok (x :: l) (cnt mod 64) O ltac:(lia)) as LS.
    destruct (mpn_lshift (x :: l) (cnt mod 64)) as [r d]. destruct LS as [A B].
    apply mk_res; [apply digits_ok_app; auto|].
    rewrite dval_app, dval_repeat0, repeat_length, Z2Nat.id by (apply Z.div_pos; lia).
    rewrite B. destruct (m_neg m); nia.
Qed.

(** Division *)
Lemma quot_signs a b : b <> 0 ->
  Z.quot a b = if xorb (a <? 0) (b <? 0) then - (Z.abs a / Z.abs b) else Z.abs a / Z.abs b.
Proof.
  intros H. rewrite <- (Z.quot_div_nonneg (Z.abs a) (Z.abs b)) by lia.
  destruct (a <? 0) eqn:EA, (b <? 0) eqn:EB; cbn [xorb].
  - rewrite (Z.abs_neq a), (Z.abs_neq b) by lia. rewrite Z.quot_opp_opp; lia.
  - rewrite (Z.abs_neq a), (Z.abs_eq b) by lia. rewrite Z.quot_opp_l; lia.
  - rewrite (Z.abs_eq a), (Z.abs_neq b) by lia. rewrite Z.quot_opp_r; lia.
  - rewrite (Z.abs_eq a), (Z.abs_eq b) by lia. lia.
Qed.

Lemma rem_signs a b : b <> 0 ->
  Z.rem a b = if a <? 0 then - (Z.abs a mod Z.abs b) else Z.abs a mod Z.abs b.
Proof.
  intros H. rewrite <- (Z.rem_mod_nonneg (Z.abs a) (Z.abs b)) by lia. rewrite Z.rem_abs_r by lia.
  destruct (a <? 0) eqn:EA.
  - rewrite (Z.abs_neq a) by lia. rewrite Z.rem_opp_l by lia. lia.
  - rewrite (Z.abs_eq a) by lia. lia.
Qed.

(** Floor division from truncated division. *)
Lemma floor_quot a b : b <> 0 ->
  a / b = (if xorb (a <? 0) (b <? 0) && negb (Z.rem a b =? 0) then Z.quot a b - 1 else Z.quot a b) /\
  a mod b = (if xorb (a <? 0) (b <? 0) && negb (Z.rem a b =? 0) then Z.rem a b + b else Z.rem a b).
Proof.
  intros H. pose proof (Z.quot_rem' a b) as QR.
  pose proof (rem_signs a b H) as RS.
  pose proof (Z.mod_pos_bound (Z.abs a) (Z.abs b) ltac:(lia)) as MB.
  set (q := Z.quot a b) in *. set (r := Z.rem a b) in *. set (m := Z.abs a mod Z.abs b) in *. clearbody q r m.
  assert (K : forall q' r', a = b * q' + r' -> (0 <= r' < b \/ b < r' <= 0) -> a / b = q' /\ a mod b = r').
  { intros q' r' E R. split; [symmetry; eapply Z.div_unique|symmetry; eapply Z.mod_unique]; eauto. }
  destruct (xorb (a <? 0) (b <? 0) && negb (r =? 0)) eqn:X.
  - apply K; [nia|]. destruct (a <? 0) eqn:EA, (b <? 0) eqn:EB; cbn [xorb andb] in X; try discriminate; lia.
  - apply K; [lia|]. destruct (a <? 0) eqn:EA, (b <? 0) eqn:EB; cbn [xorb andb] in X; lia.
Qed.

Lemma tdiv_qr_si_ok m a d : arg_ok m a -> d <> 0 -> - 2 ^ 62 <= d < 2 ^ 62 ->
  exists q, mpz_tdiv_qr_si m d = Ok (q, uwrap64 (Z.rem a d)) /\ res_ok q (Z.quot a d) /\
    (m_neg q = true \/ m_limbs q = [] \/ xorb (a <? 0) (d <? 0) = false).
Proof.
  intros (A1 & A2 & _ & A4 & A5) D R. unfold mpz_tdiv_qr_si.
  destruct (m_limbs m) as [|x l] eqn:E; [congruence|]. set (L := x :: l) in *.
  unfold mpn_divrem_1. replace (Z.abs d =? 0) with false by lia. cbn [obind]. rewrite A4, A5.
  eexists. split.
  { f_equal. f_equal. rewrite rem_signs by assumption. destruct (a <? 0); reflexivity. }
  assert (B : 0 <= Z.abs a / Z.abs d < LB ^ Z.of_nat (length L)).
  { pose proof (dval_bound LB L LB_gt1 A1). split; [apply Z.div_pos; lia|].
    apply Z.div_lt_upper_bound; [lia|]. rewrite A4 in *. nia. }
  split.
  - apply mk_res; [apply strip1_ok, todig_ok|]. rewrite strip1_dval, todig_small, quot_signs by assumption. reflexivity.
  - destruct (xorb (a <? 0) (d <? 0)); [|auto]. destruct (strip1 _); [right; left; reflexivity|left; reflexivity].
Qed.

Lemma fdiv_qr_si_ok m a d : arg_ok m a -> d <> 0 -> - 2 ^ 62 <= d < 2 ^ 62 ->
  exists q, mpz_fdiv_qr_si m d = Ok (q, uwrap64 (a mod d)) /\ res_ok q (a / d).
Proof.
  intros A D R. destruct (tdiv_qr_si_ok m a d A D R) as (q & E & [QO QV] & S).
  unfold mpz_fdiv_qr_si. rewrite E. cbn [obind].
  assert (MS : m_neg m = (a <? 0)) by apply A. rewrite MS.
  pose proof (rem_signs a d D) as RS.
  pose proof (Z.mod_pos_bound (Z.abs a) (Z.abs d) ltac:(lia)) as MB.
  assert (RB : Z.abs (Z.rem a d) < Z.abs d) by (destruct (a <? 0); lia).
  replace (uwrap64 (Z.rem a d) =? 0) with (Z.rem a d =? 0) by (unfold uwrap64; lia).
  destruct (floor_quot a d D) as [FQ FM].
  destruct (xorb (a <? 0) (d <? 0) && negb (Z.rem a d =? 0)) eqn:X.
  - destruct (sub_ui_ok q 1 QO ltac:(unfold LB; lia)) as (r & -> & RO).
    { destruct (xorb (a <? 0) (d <? 0)); [|discriminate]. destruct S as [S|[S|S]]; auto; discriminate. }
    cbn [obind]. exists r. split; [|rewrite FQ, <- QV; exact RO].
    f_equal. f_equal. rewrite FM. unfold uwrap64. rewrite Zplus_mod_idemp_l. reflexivity.
  - exists q. split; [rewrite FM; reflexivity|]. rewrite FQ. split; assumption.
Qed.

Lemma tdiv_qr_ok n d a b : arg_ok n a -> arg_ok d b -> b <> 0 ->
  exists q r, mpz_tdiv_qr n d = Ok (q, r) /\ res_ok q (Z.quot a b) /\ res_ok r (Z.rem a b) /\
    (m_neg q = true \/ m_limbs q = [] \/ xorb (a <? 0) (b <? 0) = false) /\
    m_limbs r <> [] /\ m_neg r = (a <? 0) /\
    (length (m_limbs r) <= length (m_limbs d))%nat.
Proof.
  intros A B NZ. pose proof (arg_norm _ _ B) as NB.
  destruct A as (A1 & A2 & A3 & A4 & A5), B as (B1 & B2 & B3 & B4 & B5). unfold mpz_tdiv_qr.
  pose proof (dval_bound LB _ LB_gt1 A1) as DA. pose proof (dval_bound LB _ LB_gt1 B1) as DB.
  destruct (length (m_limbs n) <? length (m_limbs d))%nat eqn:L.
  - assert (LT : Z.abs a < Z.abs b).
    { rewrite <- A4, <- B4. destruct NB as [NB|NB].
      - destruct (m_limbs n); [congruence|cbn [length] in *; lia].
      - pose proof (top_nonzero_bound _ B1 B2 NB).
        assert (LB ^ Z.of_nat (length (m_limbs n)) <= LB ^ (Z.of_nat (length (m_limbs d)) - 1))
          by (apply Z.pow_le_mono_r; [apply LB0|lia]). lia. }
    exists (mk false []), n. split; [reflexivity|]. split; [|split; [|split; [|split; [|split]]]]; try assumption; try lia.
    + apply mk_res; [constructor|]. rewrite quot_signs by assumption. rewrite Z.div_small by lia. cbn.
      destruct (xorb _ _); reflexivity.
    + split; [assumption|]. rewrite rem_signs by assumption. rewrite Z.mod_small by lia.
      unfold mval. rewrite A4, A5. reflexivity.
    + right; left; reflexivity.
  - unfold mpn_tdiv_qr. rewrite L.
    assert (T : top (m_limbs d) <> 0).
    { destruct B3 as [B3|B3]; [|assumption]. apply top_of_bound; try assumption. rewrite B3. change (LB ^ (Z.of_nat 1 - 1)) with 1. lia. }
    replace (top (m_limbs d) =? 0) with false by lia. cbn [orb obind]. rewrite A4, B4.
    assert (QB : 0 <= Z.abs a / Z.abs b < LB ^ Z.of_nat (length (m_limbs n) - length (m_limbs d) + 1)).
    { pose proof (top_nonzero_bound _ B1 B2 T) as TB. rewrite B4 in TB. rewrite A4 in DA.
      apply quot_len; auto. split; [destruct (m_limbs d); [congruence|cbn [length]; lia]|clear - L; lia]. }
    pose proof (mod_abs_bound a b NZ) as MB.
    eexists _, _. split; [reflexivity|].
    assert (RL : to_digits LB (length (m_limbs d)) (Z.abs a mod Z.abs b) <> []).
    { intros E. apply (f_equal (@length Z)) in E. rewrite to_digits_length in E.
      destruct (m_limbs d); [congruence|discriminate]. }
    split; [|split; [|split; [|split; [|split]]]].
    + apply mk_res; [apply strip1_ok, todig_ok|]. rewrite strip1_dval, todig_small, quot_signs by assumption.
      rewrite A5, B5. reflexivity.
    + apply mk_res; [apply todig_ok|]. rewrite todig_small by (clear - MB DB B4; lia).
      rewrite rem_signs by assumption. rewrite A5. reflexivity.
    + rewrite A5, B5. destruct (xorb (a <? 0) (b <? 0)); [|auto].
      destruct (strip1 _); [right; left; reflexivity|left; reflexivity].
    + rewrite mk_limbs. exact RL.
    + rewrite <- A5. destruct (to_digits LB _ _); [congruence|reflexivity].
    + rewrite mk_limbs, to_digits_length. lia.
Qed.

(** // and \\ with a LargeInteger divisor: right unless the division is exact and
    the signs differ, and then off by one and by the divisor. *)
Lemma fdiv_qr_result n d a b : arg_ok n a -> arg_ok d b -> b <> 0 ->
  exists q r, mpz_fdiv_qr n d = Ok (q, r) /\
    res_ok q (if xorb (a <? 0) (b <? 0) then Z.quot a b - 1 else Z.quot a b) /\
    res_ok r (if xorb (a <? 0) (b <? 0) then Z.rem a b + b else Z.rem a b).
Proof.
  intros A B NZ. destruct (tdiv_qr_ok n d a b A B NZ) as (q & r & E & Q & R & S & RN & RS & RL).
  unfold mpz_fdiv_qr. rewrite E. cbn [obind].
  assert (NA : m_neg n = (a <? 0)) by apply A. assert (NB : m_neg d = (b <? 0)) by apply B.
  rewrite NA, NB. destruct (Bool.eqb (a <? 0) (b <? 0)) eqn:X.
  - apply eqb_prop in X. rewrite X, xorb_nilpotent. exists q, r. auto.
  - apply eqb_false_iff in X.
    assert (XT : xorb (a <? 0) (b <? 0) = true) by (revert X; destruct (a <? 0), (b <? 0); cbn; congruence).
    rewrite XT in *. destruct (m_limbs r) as [|x l] eqn:EL; [congruence|].
    destruct Q as [QO QV]. destruct R as [RO RV].
    destruct (sub_ui_ok q 1 QO ltac:(unfold LB; lia)) as (q' & -> & QO').
    { destruct S as [S|[S|S]]; auto; discriminate. }
    destruct (mpz_add_ok r d RO (arg_digits _ _ B)) as (r' & -> & RO').
    + intros L. rewrite EL in *. lia.
    + intros L. apply norm_longer; [apply B|assumption|eapply arg_norm, B|assumption].
    + cbn [obind]. exists q', r'. rewrite <- QV, <- RV, <- (arg_mval _ _ B). auto.
Qed.

Lemma abs_nz b : b <> 0 -> (Z.abs b =? 0) = false.
Proof. lia. Qed.

Lemma abs_mod a b : b <> 0 -> (b | a) -> Z.abs a mod Z.abs b = 0.
Proof. intros. apply Z.mod_divide; [lia|]. apply Z.divide_abs_l, Z.divide_abs_r. assumption. Qed.

Lemma divexact_ok n d a b : arg_ok n a -> arg_ok d b -> b <> 0 -> (b | a) ->
  exists q, mpz_divexact n d = Ok q /\ res_ok q (a / b).
Proof.
  intros A B NZ DV. pose proof (arg_norm _ _ B) as NB.
  assert (QE : a / b = Z.quot a b).
  { destruct DV as [k ->]. rewrite Z.div_mul, Z.quot_mul by assumption. reflexivity. }
  rewrite QE, quot_signs by assumption. clear QE.
  destruct A as (A1 & A2 & A3 & A4 & A5), B as (B1 & B2 & B3 & B4 & B5). unfold mpz_divexact.
  pose proof (dval_bound LB _ LB_gt1 A1) as DA. pose proof (dval_bound LB _ LB_gt1 B1) as DB.
  assert (L1 : forall l : list Z, length l = 1%nat -> dval LB l = top l).
  { intros [|x [|]]; try discriminate. intros _. rewrite dval_cons, dval_nil. cbn [top last]. lia. }
  destruct (_ || _) eqn:E1.
  { apply orb_prop in E1. destruct E1 as [E1|E1].
    - destruct (m_limbs n); [congruence|discriminate].
    - apply andb_prop in E1. destruct E1 as [E1 E2]. apply Nat.eqb_eq in E1.
      specialize (L1 _ E1). assert (Z0 : Z.abs a = 0) by lia.
      eexists. split; [reflexivity|]. apply mk_res; [constructor|]. rewrite Z0, Z.div_0_l by lia.
      destruct (xorb _ _); reflexivity. }
  destruct (length (m_limbs d) =? 1)%nat eqn:E2.
  - apply Nat.eqb_eq in E2. specialize (L1 _ E2). unfold mpz_tdiv_q_ui.
    destruct (m_limbs n) as [|x l] eqn:EL; [congruence|]. set (L := x :: l) in *.
    unfold mpn_divrem_1. rewrite <- L1, B4. rewrite (abs_nz b NZ). cbn [obind].
    eexists. split; [reflexivity|].
    assert (B : 0 <= Z.abs a / Z.abs b < LB ^ Z.of_nat (length L)).
    { clear - NZ DA A4. split; [apply Z.div_pos; lia|]. apply Z.div_lt_upper_bound; nia. }
    rewrite A4. set (q := strip1 (to_digits LB (length L) (Z.abs a / Z.abs b))).
    assert (QO : digits_ok LB q) by (apply strip1_ok, todig_ok).
    assert (QV : dval LB q = Z.abs a / Z.abs b) by (subst q; rewrite strip1_dval, todig_small by assumption; reflexivity).
    rewrite mk_limbs. apply mk_res; [assumption|]. rewrite QV. rewrite A5, B5.
    destruct q as [|y q']; [|reflexivity]. cbn in QV. rewrite <- QV. cbn. destruct (xorb _ _), (b <? 0); reflexivity.
  - unfold mpn_divexact. rewrite A4, B4, (abs_mod a b NZ DV).
    assert (NB' : top (m_limbs d) <> 0).
    { destruct B3 as [B3|B3]; [apply Nat.eqb_neq in E2; congruence|assumption]. }
    assert (LD : (1 <= length (m_limbs d))%nat) by (destruct (m_limbs d); [congruence|cbn [length]; lia]).
    assert (AN : Z.abs a <> 0).
    { intros AZ. rewrite AZ in A4. apply orb_false_iff in E1. destruct E1 as [E1 E3].
      destruct A3 as [A3|A3].
      - rewrite A3 in E3. specialize (L1 _ A3). cbn [Nat.eqb andb] in E3. lia.
      - pose proof (top_nonzero_bound _ A1 A2 A3).
        assert (0 < LB ^ (Z.of_nat (length (m_limbs n)) - 1)).
        { apply Z.pow_pos_nonneg; [apply LB0|]. destruct (m_limbs n); [congruence|cbn [length]; lia]. } lia. }
    pose proof (top_nonzero_bound _ B1 B2 NB') as TB.
    assert (LL : (length (m_limbs d) <= length (m_limbs n))%nat).
    { destruct (Nat.le_gt_cases (length (m_limbs d)) (length (m_limbs n))) as [|LT]; [assumption|exfalso].
      pose proof (shorter_lt _ _ A1 B1 B2 NB' LT) as SL. rewrite A4, B4 in SL.
      pose proof (abs_mod a b NZ DV) as ME. clear - ME AN SL.
      rewrite Z.mod_small in ME by lia. lia. }
    replace (top (m_limbs d) =? 0) with false by (clear - NB'; lia).
    replace (length (m_limbs n) <? length (m_limbs d))%nat with false by (clear - LL; lia). cbn [orb negb Z.eqb obind].
    eexists. split; [reflexivity|]. apply mk_res; [apply todig_ok|].
    rewrite todig_small; [rewrite A5, B5; reflexivity|].
    rewrite B4 in TB. rewrite A4 in DA. apply quot_len; auto.
Qed.
