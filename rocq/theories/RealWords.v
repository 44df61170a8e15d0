(** The operations on the words of significands are those on the numbers that
    the words write. *)
From Verif Require Import Base Digits Real.
From Coq Require Import ZifyBool.

Lemma lor_disjoint a b n : 0 <= n -> 0 <= b < 2 ^ n -> Z.lor (a * 2 ^ n) b = a * 2 ^ n + b.
Proof.
  intros Hn Hb.
  assert (Z.land (a * 2 ^ n) b = 0) as Hl.
  { apply Z.bits_inj'. intros i Hi. rewrite Z.land_spec, Z.bits_0.
    destruct (Z_lt_le_dec i n).
    - rewrite Z.mul_pow2_bits_low by lia. reflexivity.
    - destruct (Z.eq_dec b 0) as [->|]; [rewrite Z.bits_0; apply andb_false_r|].
      rewrite (Z.bits_above_log2 b i); [apply andb_false_r|lia|].
      apply Z.lt_le_trans with n; [|lia]. apply Z.log2_lt_pow2; lia. }
  rewrite <- Z.lxor_lor, <- Z.add_nocarry_lxor by exact Hl. reflexivity.
Qed.

(** A word made of the low bits of one and the high bits of the next. *)
Lemma word_shift x y r : 0 < r < 16 -> 0 <= x < ELEM -> 0 <= y ->
  Z.lor (Z.shiftl y (16 - r)) (Z.shiftr x r) mod ELEM = 2 ^ (16 - r) * (y mod 2 ^ r) + x / 2 ^ r.
Proof.
  intros Hr Hx Hy. rewrite Z.shiftl_mul_pow2, Z.shiftr_div_pow2 by lia.
  assert (HE : ELEM = 2 ^ r * 2 ^ (16 - r)) by (rewrite <- Z.pow_add_r by lia; replace (r + (16 - r)) with 16 by lia; reflexivity).
  assert (H1 : 0 < 2 ^ r) by (apply Z.pow_pos_nonneg; lia).
  assert (H2 : 0 < 2 ^ (16 - r)) by (apply Z.pow_pos_nonneg; lia).
  assert (Hxr : 0 <= x / 2 ^ r < 2 ^ (16 - r)).
  { split; [apply Z.div_pos; lia|apply Z.div_lt_upper_bound; lia]. }
  rewrite lor_disjoint by lia.
  pose proof (Z.div_mod y (2 ^ r)) as Hd. pose proof (Z.mod_pos_bound y (2 ^ r)) as Hm.
  symmetry. apply (Z.mod_unique _ _ (y / 2 ^ r)).
  - left. split; [nia|]. rewrite HE. nia.
  - rewrite HE, Hd at 1 by lia. ring_simplify. nia.
Qed.

Lemma lshr_ok r l : 0 < r < 16 -> digits_ok ELEM l ->
  dval ELEM (lshr r l) = dval ELEM l / 2 ^ r /\ length (lshr r l) = length l.
Proof.
  intros Hr H. assert (H1 : 0 < 2 ^ r) by (apply Z.pow_pos_nonneg; lia).
  assert (H2 : 0 < 2 ^ (16 - r)) by (apply Z.pow_pos_nonneg; lia).
  assert (HE : ELEM = 2 ^ r * 2 ^ (16 - r)) by (rewrite <- Z.pow_add_r by lia; replace (r + (16 - r)) with 16 by lia; reflexivity).
  induction H as [|x l Hx Hl IH]; cbn [lshr].
  - split; [|reflexivity]. rewrite dval_nil, Z.div_0_l by lia. reflexivity.
  - destruct l as [|y l].
    + split; [|reflexivity]. rewrite !dval_cons, !dval_nil, Z.shiftr_div_pow2, !Z.mul_0_r, !Z.add_0_r by lia. reflexivity.
    + destruct IH as [IH1 IH2]. split; [|cbn [length] in *; congruence].
      rewrite dval_cons, IH1, (dval_cons _ x).
      pose proof (Forall_inv Hl) as Hy. cbv beta in Hy.
      rewrite word_shift by lia.
      assert (HD : y mod 2 ^ r = dval ELEM (y :: l) mod 2 ^ r).
      { rewrite dval_cons, HE, <- Z.mul_assoc, (Z.mul_comm (2 ^ r)), Z.mod_add by lia. reflexivity. }
      rewrite HD. set (D := dval ELEM (y :: l)) in *.
      replace (x + ELEM * D) with (x + 2 ^ (16 - r) * D * 2 ^ r) by (rewrite HE; ring).
      rewrite Z.div_add by lia. pose proof (Z.div_mod D (2 ^ r) ltac:(lia)) as Hd.
      rewrite Hd at 3. rewrite HE. ring.
Qed.

Lemma dval_repeat_0 n : dval ELEM (repeat 0 n) = 0.
Proof. induction n; cbn [repeat]; [reflexivity|]. rewrite dval_cons, IHn. lia. Qed.

Lemma dval_skipn n l : digits_ok ELEM l -> dval ELEM (skipn n l) = dval ELEM l / ELEM ^ Z.of_nat n.
Proof.
  intros H. revert n. induction H as [|x l Hx Hl IH]; intros [|n]; cbn [skipn].
  - reflexivity.
  - rewrite dval_nil, Z.div_0_l; [reflexivity|]. apply Z.pow_nonzero; [discriminate|lia].
  - change (ELEM ^ Z.of_nat 0) with 1. rewrite Z.div_1_r. reflexivity.
  - rewrite IH, dval_cons, pow_len_S, <- Z.div_div by (try discriminate; apply Z.pow_pos_nonneg; unfold ELEM; lia).
    f_equal. rewrite Z.add_comm, (Z.mul_comm ELEM), Z.div_add_l by discriminate.
    rewrite (Z.div_small x) by exact Hx. lia.
Qed.

Lemma rshift_sig_ok l delta : digits_ok ELEM l -> 0 <= delta < 16 * Z.of_nat (length l) ->
  dval ELEM (rshift_sig l delta) = dval ELEM l / 2 ^ delta /\ length (rshift_sig l delta) = length l.
Proof.
  intros H Hd. unfold rshift_sig. set (n := Z.to_nat (delta / 16)).
  pose proof (Z.div_mod delta 16 ltac:(lia)) as HD. pose proof (Z.mod_pos_bound delta 16 ltac:(lia)) as HM.
  assert (Hn : Z.of_nat n = delta / 16) by (unfold n; rewrite Z2Nat.id; [reflexivity|apply Z.div_pos; lia]).
  assert (HnL : (n < length l)%nat) by (apply Nat2Z.inj_lt; rewrite Hn; apply Z.div_lt_upper_bound; lia).
  assert (Hs : digits_ok ELEM (skipn n l)).
  { unfold digits_ok in *. rewrite Forall_forall in *. intros x Hx. apply H.
    rewrite <- (firstn_skipn n l). apply in_or_app. right. exact Hx. }
  assert (HP : ELEM ^ Z.of_nat n = 2 ^ (16 * (delta / 16))) by (rewrite Hn; change ELEM with (2 ^ 16); rewrite <- Z.pow_mul_r by (try apply Z.div_pos; lia); reflexivity).
  rewrite dval_app, dval_repeat_0, Z.mul_0_r, Z.add_0_r, app_length, repeat_length.
  destruct (Z.eqb_spec (delta mod 16) 0) as [Hz|Hz].
  - rewrite dval_skipn, skipn_length by exact H. rewrite HP. split; [f_equal; f_equal; lia|lia].
  - destruct (lshr_ok (delta mod 16) (skipn n l) ltac:(lia) Hs) as [E1 E2].
    rewrite E1, E2, dval_skipn, skipn_length, HP by exact H. split; [|lia].
    rewrite Z.div_div by (apply Z.pow_nonzero + apply Z.pow_pos_nonneg; lia).
    rewrite <- Z.pow_add_r by lia. f_equal. f_equal. lia.
Qed.

Lemma add_sig_words_ok r s : length r = length s -> digits_ok ELEM r -> digits_ok ELEM s ->
  forall c, 0 <= c <= 1 ->
  let (t, c') := add_sig_words r s c in
  dval ELEM t + ELEM ^ Z.of_nat (length r) * c' = dval ELEM r + dval ELEM s + c
  /\ 0 <= c' <= 1 /\ digits_ok ELEM t /\ length t = length r.
Proof.
  revert s. induction r as [|x r IH]; intros [|y s] HL Hr Hs c Hc; try discriminate; cbn [add_sig_words].
  - rewrite dval_nil. cbn [length]. change (ELEM ^ Z.of_nat 0) with 1. split; [lia|]. split; [lia|]. split; [constructor|reflexivity].
  - inversion Hr as [|? ? Hx Hr']. inversion Hs as [|? ? Hy Hs']. subst.
    rewrite Z.shiftr_div_pow2 by lia. change (2 ^ 16) with ELEM.
    assert (HE : 0 < ELEM) by reflexivity.
    assert (Hq : 0 <= (x + y + c) / ELEM <= 1).
    { split; [apply Z.div_pos; lia|]. apply Z.lt_succ_r. apply Z.div_lt_upper_bound; lia. }
    specialize (IH s ltac:(cbn in HL; lia) Hr' Hs' _ Hq).
    destruct (add_sig_words r s ((x + y + c) / ELEM)) as [t c']. destruct IH as (I1 & I2 & I3 & I4).
    cbn [length]. rewrite !dval_cons, pow_len_S.
    pose proof (Z.div_mod (x + y + c) ELEM ltac:(lia)) as HD.
    split; [|split; [exact I2|split; [constructor; [apply Z.mod_pos_bound; lia|exact I3]|congruence]]].
    replace ((x + y + c) mod ELEM + ELEM * dval ELEM t + ELEM * ELEM ^ Z.of_nat (length r) * c')
      with ((x + y + c) mod ELEM + ELEM * (dval ELEM t + ELEM ^ Z.of_nat (length r) * c')) by ring.
    rewrite I1. lia.
Qed.

Lemma sub_sig_words_ok r s : length r = length s -> digits_ok ELEM r -> digits_ok ELEM s ->
  forall c, -1 <= c <= 0 ->
  dval ELEM (sub_sig_words r s c) = (dval ELEM r - dval ELEM s + c) mod ELEM ^ Z.of_nat (length r)
  /\ length (sub_sig_words r s c) = length r.
Proof.
  revert s. induction r as [|x r IH]; intros [|y s] HL Hr Hs c Hc; try discriminate; cbn [sub_sig_words].
  - cbn [length]. change (ELEM ^ Z.of_nat 0) with 1. rewrite Z.mod_1_r. split; reflexivity.
  - inversion Hr as [|? ? Hx Hr']. inversion Hs as [|? ? Hy Hs']. subst.
    rewrite Z.shiftr_div_pow2 by lia. change (2 ^ 16) with ELEM.
    assert (HE : 0 < ELEM) by reflexivity.
    assert (Hq : -1 <= (x - y + c) / ELEM <= 0).
    { split; [apply Z.div_le_lower_bound; lia|]. apply Z.lt_succ_r. apply Z.div_lt_upper_bound; lia. }
    destruct (IH s ltac:(cbn in HL; lia) Hr' Hs' _ Hq) as [I1 I2].
    cbn [length]. rewrite !dval_cons, pow_len_S, I1. split; [|congruence].
    assert (HP : 0 < ELEM ^ Z.of_nat (length r)) by (apply Z.pow_pos_nonneg; lia).
    rewrite Z.rem_mul_r by lia.
    pose proof (Z.div_mod (x - y + c) ELEM ltac:(lia)) as HD.
    set (u := (x - y + c) mod ELEM) in *. set (v := (x - y + c) / ELEM) in *.
    assert (HX : x + ELEM * dval ELEM r - (y + ELEM * dval ELEM s) + c = u + (dval ELEM r - dval ELEM s + v) * ELEM) by lia.
    rewrite HX, Z.mod_add, Z.div_add by lia.
    assert (Hu : 0 <= u < ELEM) by (apply Z.mod_pos_bound; lia).
    rewrite (Z.mod_small u), (Z.div_small u) by exact Hu. reflexivity.
Qed.

Lemma cmp_words_ok r s : length r = length s -> digits_ok ELEM r -> digits_ok ELEM s ->
  Z.sgn (cmp_words r s) = Z.sgn (dval ELEM (rev r) - dval ELEM (rev s)).
Proof.
  revert s. induction r as [|x r IH]; intros [|y s] HL Hr Hs; try discriminate; cbn [cmp_words rev].
  - reflexivity.
  - inversion Hr as [|? ? Hx Hr']. inversion Hs as [|? ? Hy Hs']. subst. cbn in HL.
    rewrite !dval_app, !rev_length. replace (length s) with (length r) by lia.
    assert (Dr : digits_ok ELEM (rev r)) by (apply Forall_rev; exact Hr').
    assert (Ds : digits_ok ELEM (rev s)) by (apply Forall_rev; exact Hs').
    pose proof (dval_bound ELEM (rev r) ltac:(reflexivity) Dr) as B1.
    pose proof (dval_bound ELEM (rev s) ltac:(reflexivity) Ds) as B2.
    rewrite rev_length in B1, B2. replace (length s) with (length r) in B2 by lia.
    set (P := ELEM ^ Z.of_nat (length r)) in *.
    cbn [dval fold_right]. rewrite !Z.mul_0_r, !Z.add_0_r.
    destruct (Z.eqb_spec x y) as [->|Hn].
    + rewrite (IH s) by (lia || assumption). f_equal. lia.
    + fold (dval ELEM (rev r)) (dval ELEM (rev s)).
      destruct (Z.ltb_spec y x); [rewrite !Z.sgn_pos|rewrite !Z.sgn_neg]; try lia; unfold dval in *; nia.
Qed.

Lemma lshl1_ok l : digits_ok ELEM l -> forall low, 0 <= low < ELEM ->
  dval ELEM (lshl1 low l) = (2 * dval ELEM l + low / 2 ^ 15) mod ELEM ^ Z.of_nat (length l)
  /\ length (lshl1 low l) = length l.
Proof.
  induction 1 as [|x l Hx Hl IH]; intros low Hlow; cbn [lshl1].
  - cbn [length]. change (ELEM ^ Z.of_nat 0) with 1. rewrite Z.mod_1_r. split; reflexivity.
  - destruct (IH x Hx) as [I1 I2]. cbn [length]. rewrite dval_cons, (dval_cons _ x), pow_len_S, I1. split; [|congruence].
    assert (HE : 0 < ELEM) by reflexivity.
    assert (HP : 0 < ELEM ^ Z.of_nat (length l)) by (apply Z.pow_pos_nonneg; lia).
    change 1 with (16 - 15) at 1. rewrite word_shift by lia. change (2 ^ (16 - 15)) with 2.
    assert (Hlo : 0 <= low / 2 ^ 15 <= 1).
    { split; [apply Z.div_pos; lia|]. apply Z.lt_succ_r. apply Z.div_lt_upper_bound; unfold ELEM in *; lia. }
    rewrite Z.rem_mul_r by lia.
    pose proof (Z.div_mod x (2 ^ 15) ltac:(lia)) as HD. pose proof (Z.mod_pos_bound x (2 ^ 15) ltac:(lia)) as HM.
    assert (HEE : ELEM = 2 * 2 ^ 15) by reflexivity.
    assert (HX : 2 * (x + ELEM * dval ELEM l) + low / 2 ^ 15
                 = 2 * (x mod 2 ^ 15) + low / 2 ^ 15 + (2 * dval ELEM l + x / 2 ^ 15) * ELEM) by lia.
    rewrite HX, Z.mod_add, Z.div_add by lia.
    rewrite (Z.mod_small (2 * (x mod 2 ^ 15) + low / 2 ^ 15)), (Z.div_small (2 * (x mod 2 ^ 15) + low / 2 ^ 15)) by lia.
    reflexivity.
Qed.
