From Verif Require Import Base Digits IntRep IntRepProofs Mpz MpzSpec MpzProofs MpzOps.

Lemma split_bit a x n : 0 <= a < LB -> 0 <= n ->
  Z.testbit (a + LB * x) n = if n <? 64 then Z.testbit a n else Z.testbit x (n - 64).
Proof.
  intros A N. destruct (n <? 64) eqn:E.
  - rewrite <- (Z.mod_pow2_bits_low (a + LB * x) 64 n) by lia. f_equal. unfold LB in *.
    rewrite Z.mul_comm, Z.mod_add by lia. apply Z.mod_small. assumption.
  - replace n with ((n - 64) + 64) at 1 by lia. rewrite <- Z.div_pow2_bits by lia. f_equal.
    change (2 ^ 64) with LB. rewrite Z.mul_comm, Z.div_add by (unfold LB; lia). rewrite Z.div_small by assumption. lia.
Qed.

(** Functions that work bit by bit. *)
Definition bitwise (f : Z -> Z -> Z) (g : bool -> bool -> bool) : Prop :=
  g false false = false /\ forall a b n, Z.testbit (f a b) n = g (Z.testbit a n) (Z.testbit b n).

Lemma bw_land : bitwise Z.land andb. Proof. split; [reflexivity|apply Z.land_spec]. Qed.
Lemma bw_lor : bitwise Z.lor orb. Proof. split; [reflexivity|apply Z.lor_spec]. Qed.
Lemma bw_lxor : bitwise Z.lxor xorb. Proof. split; [reflexivity|apply Z.lxor_spec]. Qed.
Lemma bw_ldiff : bitwise Z.ldiff (fun x y => x && negb y). Proof. split; [reflexivity|apply Z.ldiff_spec]. Qed.

Section bw.
  Context (f : Z -> Z -> Z) (g : bool -> bool -> bool) (F : bitwise f g).

  Lemma bw_nonneg a b : 0 <= a -> 0 <= b -> 0 <= f a b.
  Proof.
    intros A B. destruct F as [G S]. apply Z.bits_iff_nonneg_ex. 
    exists (Z.max (Z.log2 a) (Z.log2 b)). intros m H.
    rewrite S, !Z.bits_above_log2 by lia. exact G.
  Qed.

  Lemma bw_range a b : 0 <= a < LB -> 0 <= b < LB -> 0 <= f a b < LB.
  Proof.
    intros A B. pose proof (bw_nonneg a b ltac:(lia) ltac:(lia)) as NN. split; [assumption|].
    destruct F as [G S].
    assert (M : f a b mod LB = f a b).
    { apply Z.bits_inj'. intros n N. unfold LB. destruct (Z.lt_ge_cases n 64) as [L|L].
      - apply Z.mod_pow2_bits_low. assumption.
      - rewrite Z.mod_pow2_bits_high by lia. rewrite S.
        rewrite <- (Z.mod_small a LB), <- (Z.mod_small b LB) by assumption. unfold LB.
        rewrite !Z.mod_pow2_bits_high by lia. symmetry. exact G. }
    rewrite <- M. apply Z.mod_pos_bound. reflexivity.
  Qed.

  Lemma bw_split a b x y : 0 <= a < LB -> 0 <= b < LB ->
    f (a + LB * x) (b + LB * y) = f a b + LB * f x y.
  Proof.
    intros A B. pose proof (bw_range a b A B) as R. destruct F as [G S].
    apply Z.bits_inj'. intros n N. rewrite S, !split_bit by assumption.
    destruct (n <? 64); rewrite S; reflexivity.
  Qed.

  Lemma zipw_ok a b : digits_ok LB a -> digits_ok LB b -> digits_ok LB (zipw f a b).
  Proof.
    revert b. induction a as [|x a IH]; intros [|y b] A B; cbn [zipw]; try constructor.
    - apply bw_range; [apply (Forall_inv A)|apply (Forall_inv B)].
    - apply IH; [apply (Forall_inv_tail A)|apply (Forall_inv_tail B)].
  Qed.
  Lemma zip1_ok a b : digits_ok LB a -> digits_ok LB b -> digits_ok LB (zip1 f a b).
  Proof.
    revert b. induction a as [|x a IH]; intros [|y b] A B; cbn [zip1]; try constructor; try assumption.
    - apply (Forall_inv A).
    - apply (Forall_inv_tail A).
    - apply bw_range; [apply (Forall_inv A)|apply (Forall_inv B)].
    - apply IH; [apply (Forall_inv_tail A)|apply (Forall_inv_tail B)].
  Qed.
  Lemma zip2_ok a b : digits_ok LB a -> digits_ok LB b -> digits_ok LB (zip2 f a b).
  Proof.
    revert b. induction a as [|x a IH]; intros [|y b] A B; cbn [zip2]; try assumption.
    constructor.
    - apply bw_range; [apply (Forall_inv A)|apply (Forall_inv B)].
    - apply IH; [apply (Forall_inv_tail A)|apply (Forall_inv_tail B)].
  Qed.

  Lemma f00 : f 0 0 = 0.
  Proof.
    destruct F as [G S]. apply Z.bits_inj'. intros n N. rewrite S, Z.bits_0. exact G.
  Qed.

  (** [f] only matters on the common limbs if it is zero when one of them is. *)
  Lemma zipw_val a b : digits_ok LB a -> digits_ok LB b ->
    ((length b < length a)%nat -> forall x, f x 0 = 0) ->
    ((length a < length b)%nat -> forall x, f 0 x = 0) ->
    dval LB (zipw f a b) = f (dval LB a) (dval LB b).
  Proof.
    revert b. induction a as [|x a IH]; intros [|y b] A B F1 F2; cbn [zipw]; rewrite ?dval_cons, ?dval_nil.
    - symmetry. apply f00.
    - symmetry. apply F2. cbn [length]. lia.
    - symmetry. apply F1. cbn [length]. lia.
    - rewrite IH; [|apply (Forall_inv_tail A)|apply (Forall_inv_tail B)| |].
      + symmetry. apply bw_split; [apply (Forall_inv A)|apply (Forall_inv B)].
      + intros L. apply F1. cbn [length]. lia.
      + intros L. apply F2. cbn [length]. lia.
  Qed.
  Lemma zip1_val a b : digits_ok LB a -> digits_ok LB b -> (length b <= length a)%nat ->
    (forall x, f x 0 = x) -> dval LB (zip1 f a b) = f (dval LB a) (dval LB b).
  Proof.
    revert b. induction a as [|x a IH]; intros [|y b] A B L I; cbn [zip1]; rewrite ?dval_cons, ?dval_nil.
    - symmetry. apply f00.
    - cbn [length] in L. lia.
    - symmetry. apply I.
    - rewrite IH; [|apply (Forall_inv_tail A)|apply (Forall_inv_tail B)|cbn [length] in L; lia|assumption].
      symmetry. apply bw_split; [apply (Forall_inv A)|apply (Forall_inv B)].
  Qed.
  Lemma zip2_val a b : digits_ok LB a -> digits_ok LB b ->
    (forall x, f x 0 = x) -> (forall x, f 0 x = x) -> dval LB (zip2 f a b) = f (dval LB a) (dval LB b).
  Proof.
    revert b. induction a as [|x a IH]; intros [|y b] A B I J; cbn [zip2]; rewrite ?dval_cons, ?dval_nil.
    - symmetry. apply f00.
    - symmetry. apply J.
    - symmetry. apply I.
    - rewrite IH; [|apply (Forall_inv_tail A)|apply (Forall_inv_tail B)|assumption|assumption].
      symmetry. apply bw_split; [apply (Forall_inv A)|apply (Forall_inv B)].
  Qed.
  Lemma zip2_nil a b : a <> [] -> zip2 f a b <> [].
  Proof. destruct a, b; cbn; congruence. Qed.
End bw.

Lemma lnot_m1 x : Z.lnot (x - 1) = - x.
Proof. unfold Z.lnot. lia. Qed.
Lemma neg_lnot z : z = Z.lnot (- z - 1).
Proof. unfold Z.lnot. lia. Qed.

Lemma arg_neg m z : arg_ok m z -> m_neg m = true ->
  exists p, digits_ok LB (sub1 (m_limbs m)) /\ dval LB (sub1 (m_limbs m)) = p /\ z = Z.lnot p /\
    0 <= p /\ sub1 (m_limbs m) <> [] /\ length (sub1 (m_limbs m)) = length (m_limbs m).
Proof.
  intros (O & N & _ & V & S) E. rewrite E in S. symmetry in S. apply Z.ltb_lt in S.
  destruct (sub1_ok _ O ltac:(lia)) as (A & B & C). exists (- z - 1).
  split; [exact A|]. split; [lia|]. split; [apply neg_lnot|]. split; [lia|]. split; [|exact C].
  intros E'. rewrite E' in C. destruct (m_limbs m); [congruence|discriminate].
Qed.

Lemma arg_pos m z : arg_ok m z -> m_neg m = false -> dval LB (m_limbs m) = z /\ 0 <= z.
Proof. intros (O & N & _ & V & S) E. rewrite E in S. lia. Qed.

Lemma mk_add1 l z : digits_ok LB l -> l <> [] -> z = Z.lnot (dval LB l) -> res_ok (mk true (add1 l)) z.
Proof.
  intros O N ->. destruct (add1_ok l O N) as [A B]. apply mk_res; [exact A|]. rewrite B. unfold Z.lnot. lia.
Qed.
Lemma mk_add1' l z : digits_ok LB l -> z = Z.lnot (dval LB l) ->
  res_ok (match l with [] => mk true [1] | r => mk true (add1 r) end) z.
Proof.
  intros O E. destruct l; [|apply mk_add1; [assumption|congruence|assumption]].
  subst z. apply mk_res; [repeat constructor; unfold LB; lia|reflexivity].
Qed.

Lemma mk_add1'' l z : digits_ok LB l -> z = Z.lnot (dval LB l) ->
  res_ok (match l with [] => mk true [1] | x :: r => mk true (add1 (x :: r)) end) z.
Proof. intros O E. pose proof (mk_add1' l z O E). destruct l; assumption. Qed.

Lemma ldiff_lnot p q : Z.land p (Z.lnot q) = Z.ldiff p q.
Proof. symmetry. apply Z.ldiff_land. Qed.

Lemma and_args u v a b : arg_ok u a -> arg_ok v b -> res_ok (mpz_and u v) (Z.land a b).
Proof.
  intros A B. unfold mpz_and.
  assert (MIX : forall x y p q, arg_ok x p -> arg_ok y q -> m_neg x = false -> m_neg y = true ->
    res_ok (let op2 := sub1 (m_limbs y) in
      if (length op2 <? length (m_limbs x))%nat then mk false (zip1 Z.ldiff (m_limbs x) op2)
      else mk false (strip (zipw Z.ldiff (m_limbs x) op2))) (Z.land p q)).
  { intros x y p q X Y SX SY. destruct (arg_pos _ _ X SX) as [XV XP].
    destruct (arg_neg _ _ Y SY) as (q' & O & V & -> & QP & _ & LE). cbv zeta. rewrite ldiff_lnot.
    destruct (_ <? _)%nat eqn:E.
    - apply mk_res; [eapply zip1_ok; [apply bw_ldiff|eapply arg_digits; eassumption|assumption]|].
      rewrite (zip1_val _ _ bw_ldiff), XV, V; [reflexivity|eapply arg_digits; eassumption|assumption|lia|apply Z.ldiff_0_r].
    - apply mk_res; [apply strip_ok; eapply zipw_ok; [apply bw_ldiff|eapply arg_digits; eassumption|assumption]|].
      rewrite strip_dval, (zipw_val _ _ bw_ldiff), XV, V; [reflexivity|eapply arg_digits; eassumption|assumption|lia|].
      intros _ z. apply Z.ldiff_0_l. }
  destruct (m_neg u) eqn:SU, (m_neg v) eqn:SV.
  - destruct (arg_neg _ _ A SU) as (p & OP & VP & -> & _ & NP & _).
    destruct (arg_neg _ _ B SV) as (q & OQ & VQ & -> & _ & NQ & _).
    apply mk_add1.
    + eapply zip2_ok; [apply bw_lor|assumption|assumption].
    + apply zip2_nil. assumption.
    + rewrite (zip2_val _ _ bw_lor), VP, VQ, Z.lnot_lor; auto using Z.lor_0_r.
  - rewrite Z.land_comm. apply MIX; assumption.
  - apply MIX; assumption.
  - destruct (arg_pos _ _ A SU) as [AV AP]. destruct (arg_pos _ _ B SV) as [BV BP].
    pose proof (arg_digits _ _ A). pose proof (arg_digits _ _ B).
    apply mk_res; [apply strip_ok; eapply zipw_ok; [apply bw_land|assumption|assumption]|].
    rewrite strip_dval, (zipw_val _ _ bw_land), AV, BV; auto using Z.land_0_r.
Qed.

Lemma land_mod p q n : 0 <= n -> 0 <= p -> 0 <= q -> (p < 2 ^ n \/ q < 2 ^ n) ->
  Z.land (p mod 2 ^ n) (q mod 2 ^ n) = Z.land p q.
Proof.
  intros N P Q B. apply Z.bits_inj'. intros k K. rewrite !Z.land_spec.
  destruct (Z.lt_ge_cases k n) as [L|L].
  - rewrite !Z.mod_pow2_bits_low by lia. reflexivity.
  - rewrite !Z.mod_pow2_bits_high by lia. cbn [andb].
    destruct B as [B|B]; [rewrite <- (Z.mod_small p (2 ^ n)) by lia|rewrite <- (Z.mod_small q (2 ^ n)) by lia];
      rewrite Z.mod_pow2_bits_high by lia; [reflexivity|symmetry; apply andb_false_r].
Qed.

Lemma sub1_firstn n l : digits_ok LB l -> 1 <= dval LB l -> (n <= length l)%nat ->
  digits_ok LB (sub1 (firstn n l)) /\ dval LB (sub1 (firstn n l)) = (dval LB l - 1) mod LB ^ Z.of_nat n.
Proof.
  intros O D L. unfold sub1, mpn_sub_1. cbn [fst]. split; [apply todig_ok|].
  rewrite to_digits_val by apply LB0. rewrite firstn_length_le by assumption.
  rewrite (dval_split LB n l L). set (x := dval LB (firstn n l)). set (y := dval LB (skipn n l)).
  replace (x + LB ^ Z.of_nat n * y - 1) with (x - 1 + y * LB ^ Z.of_nat n) by lia.
  rewrite Z.mod_add; [reflexivity|]. pose proof (LB_pos n). lia.
Qed.

Lemma or_args u v a b : arg_ok u a -> arg_ok v b -> res_ok (mpz_ior u v) (Z.lor a b).
Proof.
  intros A B. unfold mpz_ior.
  assert (MIX : forall x y p q, arg_ok x p -> arg_ok y q -> m_neg x = false -> m_neg y = true ->
    res_ok (let op2 := strip1 (sub1 (m_limbs y)) in
      let r := if (length op2 <=? length (m_limbs x))%nat
             then strip (zipw Z.ldiff op2 (m_limbs x))
             else zip1 Z.ldiff op2 (m_limbs x) in
      match r with [] => mk true [1] | r => mk true (add1 r) end) (Z.lor p q)).
  { intros x y p q X Y SX SY. destruct (arg_pos _ _ X SX) as [XV XP].
    destruct (arg_neg _ _ Y SY) as (q' & O & V & -> & QP & _ & LE). cbv zeta.
    pose proof (arg_digits _ _ X) as OX. pose proof (strip1_ok _ O) as O'.
    apply mk_add1'.
    - destruct (_ <=? _)%nat; [apply strip_ok; eapply zipw_ok|eapply zip1_ok]; try apply bw_ldiff; assumption.
    - assert (E : Z.lor p (Z.lnot q') = Z.lnot (Z.ldiff q' p)).
      { rewrite Z.ldiff_land, Z.lnot_land, Z.lnot_involutive. apply Z.lor_comm. }
      rewrite E. f_equal. rewrite <- V, <- (strip1_dval (sub1 (m_limbs y))), <- XV. symmetry.
      destruct (_ <=? _)%nat eqn:L.
      + rewrite strip_dval. apply (zipw_val _ _ bw_ldiff); auto. intros; lia.
      + apply (zip1_val _ _ bw_ldiff); auto; [lia|apply Z.ldiff_0_r]. }
  destruct (m_neg u) eqn:SU, (m_neg v) eqn:SV.
  - destruct A as (A1 & A2 & _ & A4 & A5), B as (B1 & B2 & _ & B4 & B5).
    rewrite A5 in SU. rewrite B5 in SV.
    set (n := Nat.min (length (m_limbs u)) (length (m_limbs v))).
    destruct (sub1_firstn n (m_limbs u) A1 ltac:(lia) ltac:(lia)) as [UO UV].
    destruct (sub1_firstn n (m_limbs v) B1 ltac:(lia) ltac:(lia)) as [VO VV].
    apply mk_add1''.
    + apply strip_ok. eapply zipw_ok; [apply bw_land|assumption|assumption].
    + rewrite strip_dval, (zipw_val _ _ bw_land), UV, VV; auto using Z.land_0_r.
      rewrite A4, B4, LBpow2 by lia.
      pose proof (dval_bound LB _ LB_gt1 A1) as DA. pose proof (dval_bound LB _ LB_gt1 B1) as DB.
      rewrite LBpow2 in DA, DB by lia.
      rewrite land_mod; [|lia|lia|lia|].
      * rewrite Z.lnot_land. f_equal; unfold Z.lnot; lia.
      * assert (n = length (m_limbs u) \/ n = length (m_limbs v)) as [E|E] by lia; rewrite E; [left|right]; lia.
  - rewrite Z.lor_comm. apply MIX; assumption.
  - apply MIX; assumption.
  - destruct (arg_pos _ _ A SU) as [AV AP]. destruct (arg_pos _ _ B SV) as [BV BP].
    pose proof (arg_digits _ _ A). pose proof (arg_digits _ _ B).
    apply mk_res; [eapply zip2_ok; [apply bw_lor|assumption|assumption]|].
    rewrite (zip2_val _ _ bw_lor), AV, BV; auto using Z.lor_0_r.
Qed.

Lemma xor_args u v a b : arg_ok u a -> arg_ok v b -> res_ok (mpz_xor u v) (Z.lxor a b).
Proof.
  intros A B. unfold mpz_xor.
  assert (MIX : forall x y p q, arg_ok x p -> arg_ok y q -> m_neg x = false -> m_neg y = true ->
    res_ok (mk true (add1 (zip2 Z.lxor (m_limbs x) (sub1 (m_limbs y))))) (Z.lxor p q)).
  { intros x y p q X Y SX SY. destruct (arg_pos _ _ X SX) as [XV XP].
    destruct (arg_neg _ _ Y SY) as (q' & O & V & -> & QP & _ & LE).
    pose proof (arg_digits _ _ X) as OX.
    apply mk_add1.
    - eapply zip2_ok; [apply bw_lxor|assumption|assumption].
    - apply zip2_nil. apply X.
    - rewrite (zip2_val _ _ bw_lxor), XV, V; auto using Z.lxor_0_r.
      rewrite Z.lnot_lxor_r. reflexivity. }
  pose proof (arg_digits _ _ A). pose proof (arg_digits _ _ B).
  destruct (m_neg u) eqn:SU, (m_neg v) eqn:SV.
  - destruct (arg_neg _ _ A SU) as (p & OP & VP & -> & _ & NP & _).
    destruct (arg_neg _ _ B SV) as (q & OQ & VQ & -> & _ & NQ & _).
    apply mk_res; [eapply zip2_ok; [apply bw_lxor|assumption|assumption]|].
    rewrite (zip2_val _ _ bw_lxor), VP, VQ; auto using Z.lxor_0_r. 
    rewrite Z.lxor_lnot_lnot. reflexivity.
  - rewrite Z.lxor_comm. apply MIX; assumption.
  - apply MIX; assumption.
  - destruct (arg_pos _ _ A SU) as [AV AP]. destruct (arg_pos _ _ B SV) as [BV BP].
    apply mk_res; [eapply zip2_ok; [apply bw_lxor|assumption|assumption]|].
    rewrite (zip2_val _ _ bw_lxor), AV, BV; auto using Z.lxor_0_r.
Qed.
