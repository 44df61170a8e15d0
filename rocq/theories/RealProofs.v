(** The operations on significands, as integers. *)
From Verif Require Import Base Digits Real.
From Coq Require Import ZifyBool.

Lemma full_top : full = 2 * top.
Proof. reflexivity. Qed.

Lemma top_eq : top = 2 ^ 159.
Proof. reflexivity. Qed.

Lemma top_pos : 0 < top.
Proof. reflexivity. Qed.

Global Opaque full top.

(** A significand with its carry, halved. *)
Lemma halve_carry u : full <= u < 2 * full -> Z.lor ((u mod full) / 2) top = u / 2.
Proof.
  intros Hu. pose proof full_top as HF. pose proof top_pos as HT.
  assert (Hm : u mod full = u - full).
  { symmetry. apply (Z.mod_unique _ _ 1); lia. }
  rewrite Hm.
  assert (Hh : (u - full) / 2 = u / 2 - top).
  { replace (u - full) with (u + (- top) * 2) by lia. rewrite Z.div_add by lia. lia. }
  rewrite Hh.
  assert (Hr : 0 <= u / 2 - top < top).
  { split; [|apply Z.lt_sub_lt_add_r; apply Z.div_lt_upper_bound; lia].
    apply Z.le_0_sub. apply Z.div_le_lower_bound; lia. }
  assert (Z.land (u / 2 - top) top = 0) as Hl;
    [|rewrite <- Z.lxor_lor, <- Z.add_nocarry_lxor by exact Hl; lia].
  apply Z.bits_inj'. intros n Hn. rewrite Z.land_spec, Z.bits_0.
  rewrite top_eq in *. rewrite Z.pow2_bits_eqb by lia.
  destruct (Z.eqb_spec 159 n) as [<-|]; [|apply andb_false_r].
  rewrite Z.bits_above_log2; [reflexivity|lia|].
  destruct (Z.eq_dec (u / 2 - 2 ^ 159) 0) as [->|]; [reflexivity|].
  apply Z.log2_lt_pow2; lia.
Qed.

Lemma div_lower a b : 0 < b -> a / b * b <= a.
Proof. intros. pose proof (Z.mul_div_le a b). lia. Qed.

Lemma div_upper a b : 0 < b -> a < (a / b + 1) * b.
Proof. intros. pose proof (Z.mul_succ_div_gt a b). lia. Qed.

Lemma split_bit s p : 0 <= p ->
  s / 2 ^ p = 2 * (s / 2 ^ (p + 1)) + (if Z.testbit s p then 1 else 0).
Proof.
  intros Hp.
  pose proof (Z.testbit_spec' s p Hp) as H.
  rewrite Z.pow_add_r, <- Z.div_div by lia. change (2 ^ 1) with 2.
  pose proof (Z.div_mod (s / 2 ^ p) 2).
  destruct (Z.testbit s p); cbn [Z.b2z] in H; lia.
Qed.

(** ** Multiplication *)

(** What the loop preserves: [a], in units of 2 ^ c, is the product with the
    bits of [s] looked at so far, rounded down, and wrong by [E] at most. *)
Definition mul_inv (R s : Z) (p : Z) (a c rr E : Z) : Prop :=
  0 <= c /\ top <= a < full
  /\ rr = R / 2 ^ (159 - p + c)
  /\ a * 2 ^ c * top <= R * (s / 2 ^ p * 2 ^ p) <= (a + E) * 2 ^ c * top.

Definition mul_res (R s a c : Z) : Prop :=
  0 <= c /\ top <= a < full
  /\ a * 2 ^ c * top <= R * s <= (a + 161) * 2 ^ c * top.

Lemma mul_loop_ok R s : top <= R < full -> 0 <= s ->
  forall p a c rr, (p <= 159)%nat -> mul_inv R s (Z.of_nat p) a c rr (159 - Z.of_nat p) ->
  forall a' c', mul_loop s p a c rr = (a', c') -> mul_res R s a' c'.
Proof.
  intros HR Hs. pose proof top_pos as HT. pose proof full_top as HF.
  induction p as [|p IH]; intros a c rr Hp (Hc & Ha & Hrr & H1 & H2) a' c' Hl.
  - cbn in Hl. injection Hl as <- <-. change (Z.of_nat 0) with 0 in *.
    rewrite Z.pow_0_r, Z.div_1_r, Z.mul_1_r in *.
    pose proof (Z.pow_pos_nonneg 2 c ltac:(lia) Hc).
    repeat split; try lia; nia.
  - cbn [mul_loop] in Hl.
    remember (Z.of_nat (S p)) as P eqn:HP.
    assert (HP' : Z.of_nat p = P - 1) by lia. rewrite HP' in *.
    assert (HPr : 1 <= P <= 159) by lia. clear HP.
    assert (H2P : 0 < 2 ^ P) by (apply Z.pow_pos_nonneg; lia).
    assert (H2c : 0 < 2 ^ c) by (apply Z.pow_pos_nonneg; lia).
    assert (H2P' : 0 < 2 ^ (P - 1)) by (apply Z.pow_pos_nonneg; lia).
    assert (HPP : 2 ^ P = 2 * 2 ^ (P - 1)) by (rewrite <- Z.pow_succ_r by lia; f_equal; lia).
    destruct (Z.eqb_spec (s mod 2 ^ P) 0) as [Hz|Hz].
    { injection Hl as <- <-.
      assert (s = s / 2 ^ P * 2 ^ P) as Hs' by (pose proof (Z.div_mod s (2 ^ P)); lia).
      rewrite <- Hs' in *. repeat split; try lia; nia. }
    set (rr2 := rr / 2) in *.
    assert (Hrr2 : rr2 = R / 2 ^ (159 - (P - 1) + c)).
    { unfold rr2. rewrite Hrr, Z.div_div by (try apply Z.pow_pos_nonneg; lia).
      f_equal. replace (159 - (P - 1) + c) with (Z.succ (159 - P + c)) by lia.
      rewrite Z.pow_succ_r by lia. lia. }
    set (W := 2 ^ (159 - (P - 1) + c)) in *.
    assert (HW : 0 < W) by (apply Z.pow_pos_nonneg; lia).
    assert (HWW : W * 2 ^ (P - 1) = 2 ^ c * top).
    { unfold W. rewrite top_eq, <- !Z.pow_add_r by lia. f_equal. lia. }
    pose proof (div_lower R W HW) as Hlo. pose proof (div_upper R W HW) as Hup.
    rewrite <- Hrr2 in Hlo, Hup.
    assert (Hrr0 : 0 <= rr2) by (rewrite Hrr2; apply Z.div_pos; lia).
    assert (HsP : s < (s / 2 ^ P + 1) * 2 ^ P) by (apply div_upper; lia).
    assert (HsP2 : s / 2 ^ P * 2 ^ P <= s) by (apply div_lower; lia).
    assert (HsP0 : 0 <= s / 2 ^ P) by (apply Z.div_pos; lia).
    set (T := s / 2 ^ P) in *.
    destruct (Z.eqb_spec rr2 0) as [Hz2|Hz2].
    { injection Hl as <- <-.
      assert (HR2 : R * 2 ^ (P - 1) < 2 ^ c * top).
      { rewrite <- HWW. apply Z.mul_lt_mono_pos_r; [lia|]. nia. }
      assert (Hd : R * s <= R * (T * 2 ^ P) + R * 2 ^ P).
      { rewrite <- Z.mul_add_distr_l. apply Z.mul_le_mono_nonneg_l; lia. }
      split; [lia|]. split; [lia|]. split.
      - eapply Z.le_trans; [exact H1|]. apply Z.mul_le_mono_nonneg_l; lia.
      - replace ((a + 161) * 2 ^ c * top) with ((a + (159 - P)) * 2 ^ c * top + (P + 2) * (2 ^ c * top)) by ring.
        assert (2 * (2 ^ c * top) <= (P + 2) * (2 ^ c * top)).
        { apply Z.mul_le_mono_nonneg_r; [apply Z.mul_nonneg_nonneg|]; lia. }
        rewrite HPP in *. lia. }
    pose proof (split_bit s (P - 1) ltac:(lia)) as Hsb.
    replace (P - 1 + 1) with P in Hsb by lia. fold T in Hsb.
    destruct (Z.testbit s (P - 1)) eqn:Hbit.
    + assert (HA : rr2 * (2 ^ c * top) <= R * 2 ^ (P - 1) < (rr2 + 1) * (2 ^ c * top)).
      { rewrite <- HWW, !Z.mul_assoc. split.
        - apply Z.mul_le_mono_nonneg_r; lia.
        - apply Z.mul_lt_mono_pos_r; lia. }
      assert (HS : R * (s / 2 ^ (P - 1) * 2 ^ (P - 1)) = R * (T * 2 ^ P) + R * 2 ^ (P - 1)).
      { rewrite Hsb, HPP. ring. }
      assert (Hb1 : (a + rr2) * 2 ^ c * top <= R * (s / 2 ^ (P - 1) * 2 ^ (P - 1))).
      { rewrite HS. replace ((a + rr2) * 2 ^ c * top) with (a * 2 ^ c * top + rr2 * (2 ^ c * top)) by ring. lia. }
      assert (Hb2 : R * (s / 2 ^ (P - 1) * 2 ^ (P - 1)) <= (a + rr2 + (159 - P + 1)) * 2 ^ c * top).
      { rewrite HS. replace ((a + rr2 + (159 - P + 1)) * 2 ^ c * top) with ((a + (159 - P)) * 2 ^ c * top + (rr2 + 1) * (2 ^ c * top)) by ring. lia. }
      assert (HWbig : 1 < W).
      { unfold W. apply (Z.pow_gt_1 2); lia. }
      assert (Hrrs : rr2 < full).
      { apply Z.le_lt_trans with (rr2 * W); [|lia]. rewrite <- (Z.mul_1_r rr2) at 1.
        apply Z.mul_le_mono_nonneg_l; lia. }
      destruct (Z.ltb_spec (a + rr2) full) as [Hlt|Hge].
      * apply (IH (a + rr2) c rr2 ltac:(lia)); [|exact Hl].
        split; [lia|]. split; [lia|]. split; [exact Hrr2|]. split; [exact Hb1|].
        replace (159 - (P - 1)) with (159 - P + 1) by lia. exact Hb2.
      * rewrite halve_carry in Hl by lia.
        pose proof (div_lower (a + rr2) 2 ltac:(lia)) as Hh1.
        pose proof (div_upper (a + rr2) 2 ltac:(lia)) as Hh2.
        set (a2 := (a + rr2) / 2) in *.
        assert (Hc2 : 2 ^ (c + 1) = 2 * 2 ^ c) by (rewrite Z.pow_add_r by lia; lia).
        assert (Hq : 0 < 2 ^ c * top) by (apply Z.mul_pos_pos; lia).
        assert (Hb1' : a2 * 2 ^ (c + 1) * top <= R * (s / 2 ^ (P - 1) * 2 ^ (P - 1))).
        { rewrite Hc2.
          replace (a2 * (2 * 2 ^ c) * top) with (a2 * 2 * (2 ^ c * top)) by ring.
          replace ((a + rr2) * 2 ^ c * top) with ((a + rr2) * (2 ^ c * top)) in Hb1 by ring.
          eapply Z.le_trans; [|exact Hb1]. apply Z.mul_le_mono_nonneg_r; lia. }
        assert (Hb2' : R * (s / 2 ^ (P - 1) * 2 ^ (P - 1)) <= (a2 + (159 - P + 1)) * 2 ^ (c + 1) * top).
        { rewrite Hc2.
          replace ((a2 + (159 - P + 1)) * (2 * 2 ^ c) * top) with ((2 * a2 + 2 * (159 - P + 1)) * (2 ^ c * top)) by ring.
          replace ((a + rr2 + (159 - P + 1)) * 2 ^ c * top) with ((a + rr2 + (159 - P + 1)) * (2 ^ c * top)) in Hb2 by ring.
          eapply Z.le_trans; [exact Hb2|]. apply Z.mul_le_mono_nonneg_r; lia. }
        destruct (Z.eqb_spec (rr2 / 2) 0) as [Hz3|Hz3].
        -- injection Hl as <- <-.
           assert (Hr1 : rr2 = 1).
           { pose proof (Z.div_mod rr2 2 ltac:(lia)). pose proof (Z.mod_pos_bound rr2 2). lia. }
           assert (Hsl : s < (s / 2 ^ (P - 1) + 1) * 2 ^ (P - 1)) by (apply div_upper; lia).
           assert (Hsl2 : s / 2 ^ (P - 1) * 2 ^ (P - 1) <= s) by (apply div_lower; lia).
           assert (Hd : R * s <= R * (s / 2 ^ (P - 1) * 2 ^ (P - 1)) + R * 2 ^ (P - 1)).
           { rewrite <- Z.mul_add_distr_l. apply Z.mul_le_mono_nonneg_l; lia. }
           split; [lia|]. split; [lia|]. split.
           ++ eapply Z.le_trans; [exact Hb1'|]. apply Z.mul_le_mono_nonneg_l; lia.
           ++ rewrite Hr1 in HA.
              replace ((a2 + 161) * 2 ^ (c + 1) * top)
                with ((a2 + (159 - P + 1)) * 2 ^ (c + 1) * top + (P + 1) * 2 * (2 ^ c * top)) by (rewrite Hc2; ring).
              assert (2 * (2 ^ c * top) <= (P + 1) * 2 * (2 ^ c * top)) by (apply Z.mul_le_mono_nonneg_r; lia).
              lia.
        -- apply (IH a2 (c + 1) (rr2 / 2) ltac:(lia)); [|exact Hl].
           split; [lia|]. split; [lia|]. split; [|split; [exact Hb1'|]].
           ++ rewrite Hrr2. unfold W. rewrite Z.div_div by (try apply Z.pow_pos_nonneg; lia).
              f_equal. replace (159 - (P - 1) + (c + 1)) with (Z.succ (159 - (P - 1) + c)) by lia.
              rewrite Z.pow_succ_r by lia. lia.
           ++ replace (159 - (P - 1)) with (159 - P + 1) by lia. exact Hb2'.
    + apply (IH a c rr2 ltac:(lia)); [|exact Hl].
      assert (HS : s / 2 ^ (P - 1) * 2 ^ (P - 1) = T * 2 ^ P) by (rewrite Hsb, HPP; ring).
      split; [lia|]. split; [lia|]. split; [exact Hrr2|]. rewrite HS. split; [exact H1|].
      eapply Z.le_trans; [exact H2|]. rewrite <- !Z.mul_assoc. apply Z.mul_le_mono_nonneg_r; [apply Z.mul_nonneg_nonneg; lia|lia].
Qed.

Definition norm (r : real) : Prop := top <= sig r < full /\ sign r = 1.

Lemma testbit_top s : top <= s < full -> Z.testbit s 159 = true.
Proof.
  intros Hs. pose proof full_top. rewrite top_eq in *.
  pose proof (Z.testbit_spec' s 159 ltac:(lia)) as H1.
  assert (s / 2 ^ 159 = 1) as H2.
  { symmetry. apply (Z.div_unique _ _ _ (s - 2 ^ 159)); lia. }
  rewrite H2 in H1. destruct (Z.testbit s 159); [reflexivity|discriminate].
Qed.

Lemma do_mul_ok r s : norm r -> norm s ->
  in_int (exp r + exp s) = true -> in_int (exp r + exp s + 1) = true ->
  exists a c, do_mul r s = Ok (Real a (exp r + exp s + c) 1) /\ 0 <= c <= 1
    /\ top <= a < full
    /\ a * 2 ^ c * top <= sig r * sig s <= (a + 161) * 2 ^ c * top.
Proof.
  intros [Hr Hr1] [Hs Hs1] HI1 HI2. unfold do_mul. rewrite HI1, (testbit_top _ Hs). cbn [negb].
  destruct (mul_loop (sig s) 159 (sig r) 0 (sig r)) as [a c] eqn:E.
  pose proof top_pos as HT. pose proof full_top as HF.
  assert (HM : mul_res (sig r) (sig s) a c).
  { apply (mul_loop_ok (sig r) (sig s) Hr ltac:(lia) 159 (sig r) 0 (sig r)); [lia| |exact E].
    change (Z.of_nat 159) with 159. unfold mul_inv. rewrite <- top_eq.
    assert (sig s / top = 1) as H2.
    { symmetry. apply (Z.div_unique _ _ _ (sig s - top)); lia. }
    split; [lia|]. split; [lia|]. split; [symmetry; apply Z.div_1_r|].
    rewrite H2. change (2 ^ 0) with 1. lia. }
  destruct HM as (Hc & Ha & H1 & H2).
  assert (Hc1 : c <= 1).
  { destruct (Z_le_gt_dec c 1) as [|Hg]; [lia|exfalso].
    assert (2 ^ 2 <= 2 ^ c) by (apply Z.pow_le_mono_r; lia).
    assert (top * 2 ^ 2 * top <= a * 2 ^ c * top).
    { apply Z.mul_le_mono_nonneg_r; [lia|]. apply Z.mul_le_mono_nonneg; lia. }
    assert (sig r * sig s < full * full) by (apply Z.mul_lt_mono_nonneg; lia).
    rewrite HF in *. lia. }
  exists a, c. split; [|auto].
  unfold with_exp. rewrite Hr1, Hs1. change (1 * 1) with 1.
  assert (c = 0 \/ c = 1) as [->| ->] by lia.
  - rewrite Z.add_0_r, HI1. reflexivity.
  - rewrite HI2. reflexivity.
Qed.

(** ** Addition *)

Lemma add_aligned_ok R b e lo d : top <= R < full -> 0 <= b < full -> in_int (e + 1) = true ->
  0 < d -> b * d <= lo < (b + 1) * d ->
  exists a c, add_aligned R b e 1 = Ok (Real a (e + c) 1) /\ 0 <= c <= 1
    /\ top <= a < full
    /\ a * 2 ^ c * d <= R * d + lo < (a + 1) * 2 ^ c * d.
Proof.
  intros HR Hb HI Hd Hlo. pose proof top_pos as HT. pose proof full_top as HF.
  unfold add_aligned. destruct (Z.ltb_spec (R + b) full) as [Hlt|Hge].
  - exists (R + b), 0. rewrite Z.add_0_r. change (2 ^ 0) with 1.
    split; [reflexivity|]. split; [lia|]. split; [lia|]. lia.
  - exists ((R + b) / 2), 1. rewrite halve_carry by lia. unfold with_exp. rewrite HI.
    change (2 ^ 1) with 2.
    pose proof (div_lower (R + b) 2 ltac:(lia)) as Hh1.
    pose proof (div_upper (R + b) 2 ltac:(lia)) as Hh2.
    set (a2 := (R + b) / 2) in *.
    split; [reflexivity|]. split; [lia|]. split; [lia|].
    assert (a2 * 2 * d <= (R + b) * d) by (apply Z.mul_le_mono_nonneg_r; lia).
    assert ((R + b + 1) * d <= (a2 + 1) * 2 * d) by (apply Z.mul_le_mono_nonneg_r; lia).
    lia.
Qed.

Lemma add_shifted R S d : 0 <= S < full -> 0 <= d -> (160 <= d \/ S / 2 ^ d = 0) ->
  top <= R < full -> R * 2 ^ d <= R * 2 ^ d + S < (R + 1) * 2 ^ d.
Proof.
  intros HS Hd Hz HR. rewrite Z.mul_add_distr_r.
  assert (S < 2 ^ d); [|lia].
  assert (0 < 2 ^ d) by (apply Z.pow_pos_nonneg; lia).
  destruct Hz as [Hz|Hz].
  - assert (2 ^ 160 <= 2 ^ d) by (apply Z.pow_le_mono_r; lia).
    pose proof full_top. rewrite top_eq in *. lia.
  - pose proof (div_upper S (2 ^ d) ltac:(lia)). lia.
Qed.

Lemma div_small_full S d : 0 <= S < full -> 0 <= d -> 0 <= S / 2 ^ d < full.
Proof.
  intros HS Hd. assert (0 < 2 ^ d) by (apply Z.pow_pos_nonneg; lia). split.
  - apply Z.div_pos; lia.
  - apply Z.le_lt_trans with S; [|lia]. rewrite <- (Z.div_1_r S) at 2.
    apply Z.div_le_compat_l; lia.
Qed.

(** Which of the two has the higher exponent does not matter. *)
Lemma do_add_ok r s : norm r -> norm s ->
  in_int (Z.abs (exp r - exp s)) = true -> in_int (Z.max (exp r) (exp s) + 1) = true ->
  let d := Z.max (exp r) (exp s) - Z.min (exp r) (exp s) in
  let hi := if exp r <? exp s then sig s else sig r in
  let lo := if exp r <? exp s then sig r else sig s in
  exists a c, do_add r s = Ok (Real a (Z.max (exp r) (exp s) + c) 1) /\ 0 <= c <= 1
    /\ top <= a < full
    /\ a * 2 ^ c * 2 ^ d <= hi * 2 ^ d + lo < (a + 1) * 2 ^ c * 2 ^ d.
Proof.
  intros [Hr Hr1] [Hs Hs1] HI1 HI2. cbv zeta. unfold do_add.
  pose proof top_pos as HT. pose proof full_top as HF.
  destruct r as [R er sr], s as [S es ss]. cbn [sig exp sign] in *. subst sr ss.
  destruct (Z.ltb_spec er es) as [Hlt|Hge].
  - rewrite Z.max_r in * by lia. rewrite Z.min_l by lia. remember (es - er) as d eqn:Hd.
    replace (Z.abs (er - es)) with d in HI1 by lia. rewrite HI1. cbn [negb].
    destruct (Z.leb_spec 160 d).
    + exists S, 0. rewrite Z.add_0_r. change (2 ^ 0) with 1. rewrite !Z.mul_1_r.
      split; [reflexivity|]. split; [lia|]. split; [lia|]. apply add_shifted; lia.
    + destruct (Z.eqb_spec (R / 2 ^ d) 0).
      * exists S, 0. rewrite Z.add_0_r. change (2 ^ 0) with 1. rewrite !Z.mul_1_r.
        split; [reflexivity|]. split; [lia|]. split; [lia|]. apply add_shifted; lia.
      * assert (Hp : 0 < 2 ^ d) by (apply Z.pow_pos_nonneg; lia).
        destruct (add_aligned_ok S (R / 2 ^ d) es R (2 ^ d)) as (a & c & Ha & Hc & Hn & HE); try exact HI2; try lia.
        { apply div_small_full; lia. }
        exists a, c. split; [|auto]. rewrite <- Ha. unfold add_aligned. rewrite (Z.add_comm (R / 2 ^ d)). reflexivity.
  - rewrite Z.max_l in * by lia. rewrite Z.min_r by lia. remember (er - es) as d eqn:Hd.
    replace (Z.abs d) with d in HI1 by lia.
    destruct (Z.ltb_spec es er) as [Hlt|Heq].
    + rewrite HI1. cbn [negb]. destruct (Z.leb_spec 160 d).
      * exists R, 0. rewrite Z.add_0_r. change (2 ^ 0) with 1. rewrite !Z.mul_1_r.
        split; [reflexivity|]. split; [lia|]. split; [lia|]. apply add_shifted; lia.
      * destruct (Z.eqb_spec (S / 2 ^ d) 0).
        -- exists R, 0. rewrite Z.add_0_r. change (2 ^ 0) with 1. rewrite !Z.mul_1_r.
           split; [reflexivity|]. split; [lia|]. split; [lia|]. apply add_shifted; lia.
        -- assert (Hp : 0 < 2 ^ d) by (apply Z.pow_pos_nonneg; lia).
           destruct (add_aligned_ok R (S / 2 ^ d) er S (2 ^ d)) as (a & c & Ha & Hc & Hn & HE); try exact HI2; try lia.
           { apply div_small_full; lia. }
           exists a, c. split; [exact Ha|auto].
    + assert (d = 0) as Hd0 by lia. rewrite Hd0. change (2 ^ 0) with 1.
      destruct (add_aligned_ok R S er S 1) as (a & c & Ha & Hc & Hn & HE); try exact HI2; try lia.
      exists a, c. split; [exact Ha|auto].
Qed.

(** ** Division *)

Lemma div_loop_ok s n : 0 < s <= full -> forall u v, 0 <= u < 2 * s ->
  exists q, div_loop s n u v = v * 2 ^ Z.of_nat n + q
    /\ q * (2 * s) <= u * 2 ^ Z.of_nat n < (q + 1) * (2 * s).
Proof.
  intros Hs. induction n as [|n IH]; intros u v Hu; cbn [div_loop].
  - exists 0. change (2 ^ Z.of_nat 0) with 1. lia.
  - rewrite Nat2Z.inj_succ, Z.pow_succ_r by lia.
    destruct (Z.leb_spec s u).
    + rewrite Z.mod_small by lia.
      destruct (IH (2 * (u - s)) (2 * v + 1) ltac:(lia)) as (q & -> & Hq).
      exists (2 ^ Z.of_nat n + q). lia.
    + destruct (IH (2 * u) (2 * v) ltac:(lia)) as (q & -> & Hq).
      exists q. lia.
Qed.

Lemma normalize_ok v e : 0 < v < full -> top <= 2 * v -> in_int e = true -> in_int (e - 1) = true ->
  exists c, normalize v e 1 = Ok (Real (v * 2 ^ c) (e - c) 1) /\ 0 <= c <= 1
    /\ top <= v * 2 ^ c < full.
Proof.
  intros Hv Hh HI1 HI2. unfold normalize. pose proof full_top as HF.
  destruct (Z.eqb_spec v 0); [lia|]. unfold with_exp.
  destruct (Z_le_gt_dec top v).
  - assert (Z.log2 v = 159) as ->.
    { apply Z.log2_unique; [lia|]. change (Z.succ 159) with (1 + 159).
      rewrite Z.pow_add_r, <- top_eq by lia. lia. }
    exists 0. rewrite Z.sub_diag, Z.sub_0_r, HI1. change (2 ^ 0) with 1. lia || idtac.
    split; [reflexivity|lia].
  - assert (Z.log2 v = 158) as ->.
    { apply Z.log2_unique; [lia|]. change (Z.succ 158) with 159. rewrite <- top_eq.
      assert (2 * 2 ^ 158 = top) by (rewrite top_eq; reflexivity). lia. }
    exists 1. change (159 - 158) with 1. rewrite HI2. change (2 ^ 1) with 2.
    split; [reflexivity|lia].
Qed.

Lemma div_ok r s : norm r -> norm s ->
  in_int (exp r - exp s) = true -> in_int (exp r - exp s - 1) = true ->
  exists v c, div r s = Ok (Real (v * 2 ^ c) (exp r - exp s - c) 1) /\ 0 <= c <= 1
    /\ top <= v * 2 ^ c < full /\ top <= 2 * v
    /\ v * sig s <= sig r * top < (v + 1) * sig s.
Proof.
  intros [Hr Hr1] [Hs Hs1] HI1 HI2. unfold div. rewrite Hr1, Hs1, HI1. cbn [Z.eqb negb].
  change (1 * 1) with 1. pose proof top_pos as HT. pose proof full_top as HF.
  destruct (div_loop_ok (sig s) 160 ltac:(lia) (sig r) 0 ltac:(lia)) as (v & -> & Hv).
  rewrite Z.mul_0_l, Z.add_0_l. change (Z.of_nat 160) with (1 + 159) in Hv.
  rewrite Z.pow_add_r, <- top_eq in Hv by lia. change (2 ^ 1) with 2 in Hv.
  assert (Hv' : v * sig s <= sig r * top < (v + 1) * sig s) by lia.
  assert (H1 : v < full).
  { apply (Z.mul_lt_mono_pos_r (sig s)); [lia|].
    apply Z.le_lt_trans with (sig r * top); [lia|].
    apply Z.lt_le_trans with (full * top).
    - apply Z.mul_lt_mono_pos_r; lia.
    - apply Z.mul_le_mono_nonneg_l; lia. }
  assert (H2 : top <= 2 * v).
  { destruct (Z_le_gt_dec top (2 * v)) as [|Hg]; [lia|exfalso].
    assert (2 * v + 2 <= top).
    { assert (top = 2 * 2 ^ 158) by (rewrite top_eq; reflexivity). lia. }
    assert ((2 * (v + 1)) * sig s <= top * sig s) by (apply Z.mul_le_mono_nonneg_r; lia).
    assert (top * sig s < top * full) by (apply Z.mul_lt_mono_pos_l; lia).
    assert (top * top <= sig r * top) by (apply Z.mul_le_mono_nonneg_r; lia).
    rewrite HF in *. lia. }
  destruct (normalize_ok v (exp r - exp s) ltac:(lia) H2 HI1 HI2) as (c & HN & Hc & Hn).
  exists v, c. auto 10.
Qed.
