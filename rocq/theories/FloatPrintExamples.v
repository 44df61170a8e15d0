(** Texts of Floats, and particular Floats. *)
From Coq Require Import Reals Lra ZifyBool.
From Flocq Require Import Core.
From Verif Require Import Base Digits Real RealSpec FloatPrint FloatPrintSpec FloatPrintLoop FloatPrintText FloatPrintProofs.
From Verif Require RealExamples.
Open Scope Z_scope.
Open Scope R_scope.

Lemma print_text k negative m e : is_float k m ->
  exists ints fracs ex, print_float k negative m e = Ok (text negative ints fracs ex) /\ readable ints fracs ex.
Proof.
  intros H. destruct (print_ok k m e H negative) as (l & z & f & N & ints & fracs & ex & _ & _ & _ & E & R & _).
  exists ints, fracs, ex. auto.
Qed.

Lemma print_error k negative m e : is_float k m -> ~ ten_above (value k m e) (ulp k e / 2) ->
  exists ints fracs ex, print_float k negative m e = Ok (text negative ints fracs ex)
    /\ Rabs (written 10 ints fracs ex - value k m e) < ulp k e.
Proof.
  intros H Ht. destruct (print_ok k m e H negative) as (l & z & f & N & ints & fracs & ex & Hl & Hf & EN & E & R & [W|[T _]]).
  - exists ints, fracs, ex. split; [exact E|]. rewrite W, EN. apply (N_error k m e l); assumption.
  - exfalso. apply Ht. exists (l + 1)%Z. pose proof (half_bounds k e). lra.
Qed.

Lemma half_small k e q : 0 <= q < ulp k e / 2 -> (1 <= ulp k e -> q < ulp k e / 4) -> q < half k e.
Proof.
  intros H1 H2. unfold half. destruct (0 <=? e - bits k + 1)%Z eqn:E; [|lra].
  apply H2. unfold ulp. change 1 with (bpow radix2 0) at 1. apply bpow_le. lia.
Qed.

Lemma print_short k negative m e d j : is_float k m -> (0 < d)%Z -> 2 * ulp k e <= bpow ten j ->
  let V := IZR d * bpow ten j in
  Rabs (V - value k m e) < ulp k e / 2 -> (1 <= ulp k e -> Rabs (V - value k m e) < ulp k e / 4) ->
  (value k m e < V -> forall i, V <> bpow ten i) ->
  exists ints fracs ex, print_float k negative m e = Ok (text negative ints fracs ex) /\ written 10 ints fracs ex = V.
Proof.
  intros H Hd Hj V Hn Hn' Hp.
  pose proof (half_small k e _ (conj (Rabs_pos _) Hn) Hn') as Hh.
  destruct (print_ok k m e H negative) as (l & z & f & N & ints & fracs & ex & Hl & Hf & EN & E & R & W).
  assert (G : IZR N * bpow ten z = V).
  { rewrite EN. apply (near_ok k m e l z f d j); auto.
    intros C. specialize (Hp C). destruct (Z.eq_dec d 1) as [->|]; [|lia].
    exfalso. apply (Hp j). unfold V. lra. }
  exists ints, fracs, ex. split; [exact E|]. destruct W as [W|[T W]]; [congruence|].
  exfalso. rewrite G in W. apply (Hp ltac:(lra) (l + 1)%Z). exact W.
Qed.

Lemma kept_bits k : (4 * 10 ^ kept k + 1 <= 2 ^ bits k)%Z.
Proof. destruct k; vm_compute; discriminate. Qed.

Lemma print_decimal k negative m e d j : is_float k m -> (0 < d < 10 ^ kept k)%Z ->
  let V := IZR d * bpow ten j in
  Rabs (V - value k m e) < ulp k e / 2 -> (1 <= ulp k e -> Rabs (V - value k m e) < ulp k e / 4) ->
  (value k m e < V -> forall i, V <> bpow ten i) ->
  exists ints fracs ex, print_float k negative m e = Ok (text negative ints fracs ex) /\ written 10 ints fracs ex = V.
Proof.
  intros H Hd V Hn Hn' Hp. apply print_short; auto; [lia|].
  pose proof (x_bounds k m e H) as [B _]. pose proof (u_pos k e) as Hu. pose proof (bits_pos k m e H) as Hb.
  pose proof (bpow_gt_0 ten j) as Pj. pose proof (kept_bits k) as K.
  assert (E : 2 * bpow radix2 (bits k - 1) = bpow radix2 (bits k)).
  { replace (bits k) with (1 + (bits k - 1))%Z at 2 by lia. rewrite bpow_plus. reflexivity. }
  assert (K' : 4 * IZR d + 1 <= bpow radix2 (bits k)).
  { rewrite <- IZR_Zpower by lia. change (Zpower radix2 (bits k)) with (2 ^ bits k)%Z.
    rewrite <- (mult_IZR 4), <- (plus_IZR _ 1). apply IZR_le. lia. }
  apply Rabs_def2 in Hn. unfold V in Hn. assert (D : 1 <= IZR d) by (apply IZR_le; lia).
  apply Rnot_lt_le. intros C.
  assert (X : (4 * IZR d + 1) * ulp k e <= bpow radix2 (bits k) * ulp k e) by (apply Rmult_le_compat_r; lra).
  assert (Y : IZR d * bpow ten j < IZR d * (2 * ulp k e)) by (apply Rmult_lt_compat_l; lra).
  rewrite <- E in X. lra.
Qed.

(** ** Particular Floats *)
Lemma two_bpow a b : (b <= 0)%Z -> IZR a * bpow radix2 b = IZR a / IZR (2 ^ (- b)).
Proof.
  intros H. unfold Rdiv. f_equal. change (2 ^ (- b))%Z with (Zpower radix2 (- b)). rewrite IZR_Zpower by lia.
  rewrite bpow_opp, Rinv_inv. reflexivity.
Qed.

(** 0.1, and 12345.678 with the sign of a negative number *)
Lemma sample_text : is_float FloatD 7205759403792794
  /\ print_float FloatD true 7205759403792794 (-4) = Ok (text true [0]%Z [1]%Z None)
  /\ ~ ten_above (value FloatD 7205759403792794 (-4)) (ulp FloatD (-4) / 2).
Proof.
  split; [unfold is_float; cbn [bits]; lia|]. split; [vm_compute; reflexivity|].
  intros (i & L & U). unfold value, ulp in *. cbn [bits] in *.
  change (-4 - 53 + 1)%Z with (-56)%Z in *. rewrite two_bpow in L, U by lia.
  replace (bpow radix2 (-56)) with (1 * bpow radix2 (-56)) in U by ring. rewrite two_bpow in U by lia.
  change (2 ^ (- -56))%Z with 72057594037927936%Z in *.
  assert (G : (-1 < i < 0)%Z); [|lia]. split; apply (lt_bpow ten).
  - change (-1)%Z with (0 - 1)%Z. rewrite bpow_ten_P. change (bpow ten 0) with 1. lra.
  - change (bpow ten 0) with 1. lra.
Qed.

Lemma sample_short : is_float FloatD 7205759403792794 /\ 2 * ulp FloatD (-4) <= bpow ten (-1)
  /\ (0 < 1 < 10 ^ kept FloatD)%Z
  /\ Rabs (IZR 1 * bpow ten (-1) - value FloatD 7205759403792794 (-4)) < ulp FloatD (-4) / 2
  /\ ulp FloatD (-4) < 1
  /\ ~ value FloatD 7205759403792794 (-4) < IZR 1 * bpow ten (-1).
Proof.
  split; [unfold is_float; cbn [bits]; lia|]. unfold value, ulp. cbn [bits].
  change (-4 - 53 + 1)%Z with (-56)%Z. rewrite two_bpow by lia.
  replace (bpow radix2 (-56)) with (1 * bpow radix2 (-56)) by ring. rewrite two_bpow by lia.
  change (2 ^ (- -56))%Z with 72057594037927936%Z.
  assert (E : bpow ten (-1) = 1 / 10) by (change (-1)%Z with (0 - 1)%Z; rewrite bpow_ten_P; reflexivity).
  rewrite E. split; [lra|]. split; [cbn [kept]; lia|]. split; [apply Rabs_def1; lra|]. split; lra.
Qed.

(** The FloatE nearest to a ten-thousandth *)
Lemma tenth_witness : is_float FloatE 13743895
  /\ print_float FloatE false 13743895 (-14) = Ok (text false [0]%Z [0; 0; 0; 0; 1]%Z None)
  /\ Rabs (1 / 10000 - value FloatE 13743895 (-14)) < ulp FloatE (-14) / 2
  /\ written 10 [0]%Z [0; 0; 0; 0; 1]%Z None = 1 / 100000.
Proof.
  split; [unfold is_float; cbn [bits]; lia|]. split; [vm_compute; reflexivity|]. split.
  - unfold value, ulp. cbn [bits]. change (-14 - 24 + 1)%Z with (-37)%Z. rewrite two_bpow by lia.
    replace (bpow radix2 (-37)) with (1 * bpow radix2 (-37)) by ring. rewrite two_bpow by lia.
    change (2 ^ (- -37))%Z with 137438953472%Z. apply Rabs_def1; lra.
  - rewrite RealExamples.written_fraction. change (number 10 ([0] ++ [0; 0; 0; 0; 1])%Z) with 1%Z. cbn [length pow]. field.
Qed.

(** A FloatD that is read back as its neighbour *)
Lemma near_witness : exists y, is_float FloatD 4814580399281224
  /\ print_float FloatD false 4814580399281224 2 = Ok (text false [4]%Z [2; 7; 6; 2; 0; 6; 4; 1; 0; 5; 5; 2; 7; 9; 5]%Z None)
  /\ float_literal FloatD 10 [4]%Z [2; 7; 6; 2; 0; 6; 4; 1; 0; 5; 5; 2; 7; 9; 5]%Z None = Ok y
  /\ scaled y = value FloatD 4814580399281223 2.
Proof.
  eexists. split; [unfold is_float; cbn [bits]; lia|]. split; [vm_compute; reflexivity|]. split; [vm_compute; reflexivity|].
  unfold scaled, value, ulp. cbn [bits fst snd]. change (2 - 53 + 1)%Z with (-157 + 107)%Z.
  rewrite (Z.add_comm (-157)), bpow_plus, <- Rmult_assoc. f_equal.
  rewrite <- IZR_Zpower by lia. rewrite <- mult_IZR. apply f_equal. vm_compute. reflexivity.
Qed.

(** A large FloatD next to 1.89e22 *)
Lemma large_witness : is_float FloatD 4506111145019531
  /\ (0 < 189 < 10 ^ kept FloatD)%Z
  /\ print_float FloatD false 4506111145019531 74
     = Ok (text false [1]%Z [8; 8; 9; 9; 9; 9; 9; 9; 9; 9; 9; 9; 9; 9; 9; 9]%Z (Some (false, [2; 2]%Z)))
  /\ 1 <= ulp FloatD 74
  /\ Rabs (IZR 189 * bpow ten 20 - value FloatD 4506111145019531 74) = ulp FloatD 74 / 4
  /\ written 10 [1]%Z [8; 8; 9; 9; 9; 9; 9; 9; 9; 9; 9; 9; 9; 9; 9; 9]%Z (Some (false, [2; 2]%Z)) < IZR 189 * bpow ten 20.
Proof.
  split; [unfold is_float; cbn [bits]; lia|]. split; [cbn [kept]; lia|]. split; [vm_compute; reflexivity|].
  assert (U : ulp FloatD 74 = IZR (2 ^ 22)).
  { unfold ulp. cbn [bits]. change (74 - 53 + 1)%Z with 22%Z. rewrite <- IZR_Zpower by lia. reflexivity. }
  unfold value. rewrite U. rewrite <- (IZR_ten 20) by lia.
  split; [apply IZR_le; lia|]. split.
  - rewrite <- !mult_IZR, <- minus_IZR.
    replace (189 * 10 ^ 20 - 4506111145019531 * 2 ^ 22)%Z with (2 ^ 20)%Z by (vm_compute; reflexivity).
    rewrite Rabs_pos_eq by (apply IZR_le; lia). change (2 ^ 22)%Z with (2 ^ 20 * 4)%Z. rewrite mult_IZR. field.
  - rewrite written_val. unfold val. cbn [exponent length app].
    change (number 10 [2; 2]%Z) with 22%Z.
    change (22 + Z.of_nat 1 - Z.of_nat 17)%Z with 6%Z.
    change (number 10 [1; 8; 8; 9; 9; 9; 9; 9; 9; 9; 9; 9; 9; 9; 9; 9; 9]%Z) with 18899999999999999%Z.
    rewrite <- (IZR_ten 6) by lia. rewrite <- !mult_IZR. apply IZR_lt. vm_compute. reflexivity.
Qed.
