From Verif Require Import Base Digits IntRep.

Lemma pow256 n : 256 ^ Z.of_nat n = 2 ^ (8 * Z.of_nat n).
Proof. change 256 with (2 ^ 8). rewrite <- Z.pow_mul_r by lia. reflexivity. Qed.

Lemma large_length_ge8 neg bs : canonical (Large neg bs) -> (8 <= length bs)%nat.
Proof.
  intros [_ [Hp Hn]]. set (n := Z.of_nat (length bs)) in *.
  destruct (Z.le_gt_cases 8 n) as [|L]; [lia|exfalso].
  assert (n <= 0 \/ 0 < n) as [N|N] by lia.
  - assert (n = 0) by lia. destruct bs; [|cbn in *; lia].
    destruct neg; cbn in *; lia.
  - assert (P : 2 ^ (8 * n - 1) <= 2 ^ 55) by (apply Z.pow_le_mono_r; lia).
    destruct neg; [specialize (Hn eq_refl)|specialize (Hp eq_refl)]; lia.
Qed.

Lemma canonical_large_val neg bs : canonical (Large neg bs) ->
  if neg then st_val (Large neg bs) < - 2 ^ 62 else 2 ^ 62 <= st_val (Large neg bs).
Proof. intros [_ [Hp Hn]]. destruct neg; [apply Hn|apply Hp]; reflexivity. Qed.

Lemma pow2_len_unique (v : Z) (n m : Z) : 0 < n -> 0 < m ->
  2 ^ (8 * n - 9) <= v < 2 ^ (8 * n - 1) -> 2 ^ (8 * m - 9) <= v < 2 ^ (8 * m - 1) ->
  n = m.
Proof.
  intros Hn Hm A B.
  assert (n < m \/ n = m \/ m < n) as [L|[E|L]] by lia; [|assumption|]; exfalso.
  - assert (2 ^ (8 * n - 1) <= 2 ^ (8 * m - 9)) by (apply Z.pow_le_mono_r; lia). lia.
  - assert (2 ^ (8 * m - 1) <= 2 ^ (8 * n - 9)) by (apply Z.pow_le_mono_r; lia). lia.
Qed.

Lemma canonical_unique a b : canonical a -> canonical b -> st_val a = st_val b -> a = b.
Proof.
  intros Ca Cb E. destruct a as [x|na la], b as [y|nb lb].
  - cbn in E. congruence.
  - pose proof (canonical_large_val _ _ Cb). cbn in Ca. change (st_val (Small x)) with x in E. destruct nb; lia.
  - pose proof (canonical_large_val _ _ Ca). cbn in Cb. change (st_val (Small y)) with y in E. destruct na; lia.
  - pose proof (canonical_large_val _ _ Ca) as Va. pose proof (canonical_large_val _ _ Cb) as Vb.
    pose proof (large_length_ge8 _ _ Ca). pose proof (large_length_ge8 _ _ Cb).
    assert (na = nb) as <- by (destruct na, nb; try reflexivity; lia).
    f_equal. destruct Ca as [Oa [Pa Na]], Cb as [Ob [Pb Nb]].
    assert (L : Z.of_nat (length la) = Z.of_nat (length lb)).
    { destruct na.
      - specialize (Na eq_refl). specialize (Nb eq_refl). rewrite E in Na.
        assert (K : forall v n m : Z, 0 < n -> 0 < m ->
           - 2 ^ (8 * n - 1) <= v < - 2 ^ (8 * n - 9) -> - 2 ^ (8 * m - 1) <= v < - 2 ^ (8 * m - 9) -> n = m).
        { intros v n m Hn Hm A B.
          assert (n < m \/ n = m \/ m < n) as [L|[E'|L]] by lia; [|assumption|]; exfalso.
          - assert (2 ^ (8 * n - 1) <= 2 ^ (8 * m - 9)) by (apply Z.pow_le_mono_r; lia). lia.
          - assert (2 ^ (8 * m - 1) <= 2 ^ (8 * n - 9)) by (apply Z.pow_le_mono_r; lia). lia. }
        apply (K (st_val (Large true lb))); lia.
      - specialize (Pa eq_refl). specialize (Pb eq_refl). rewrite E in Pa.
        apply (pow2_len_unique (st_val (Large false lb))); lia. }
    apply (dval_inj 256); [lia|assumption|assumption|lia|].
    cbn [st_val] in E. rewrite L in E. lia.
Qed.

(** Top bit and minimality, on the bytes. *)
Lemma large_dval_bound neg bs : canonical (Large neg bs) ->
  0 <= dval 256 bs < 2 ^ (8 * Z.of_nat (length bs)).
Proof. intros [O _]. rewrite <- pow256. apply dval_bound; [lia|assumption]. Qed.
