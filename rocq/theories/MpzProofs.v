From Verif Require Import Base Digits IntRep IntRepProofs Mpz MpzSpec.

Ltac dv := Z.div_mod_to_equations; nia.

Lemma LB_gt1 : 1 < LB. Proof. reflexivity. Qed.
Lemma LB_256 : LB = 256 ^ 8. Proof. reflexivity. Qed.
#[local] Hint Resolve LB_gt1 : core.

Lemma LB_pos n : 0 < LB ^ Z.of_nat n.
Proof. apply Z.pow_pos_nonneg; [unfold LB; lia|lia]. Qed.

Lemma LBpow n : LB ^ Z.of_nat n = 256 ^ Z.of_nat (8 * n).
Proof. rewrite LB_256, <- Z.pow_mul_r by lia. f_equal. lia. Qed.

Lemma LBpow2 n : 0 <= n -> LB ^ n = 2 ^ (64 * n).
Proof. intros. unfold LB. rewrite <- Z.pow_mul_r by lia. reflexivity. Qed.

Lemma p256 n : 0 <= n -> 256 ^ n = 2 ^ (8 * n).
Proof. intros. change 256 with (2 ^ 8). rewrite <- Z.pow_mul_r by lia. reflexivity. Qed.

(** ** Last limb *)
Lemma split_top l : l <> [] -> l = removelast l ++ [top l].
Proof. apply app_removelast_last. Qed.

Lemma removelast_len (l : list Z) : length (removelast l) = (length l - 1)%nat.
Proof.
  destruct l as [|x l]; [reflexivity|].
  pose proof (split_top (x :: l) ltac:(discriminate)) as E.
  apply (f_equal (@length Z)) in E. rewrite app_length in E. cbn [length] in *. lia.
Qed.

Lemma dval_top B l : l <> [] -> dval B l = dval B (removelast l) + B ^ (Z.of_nat (length l) - 1) * top l.
Proof.
  intros H. rewrite (split_top l H) at 1. rewrite dval_app, removelast_len.
  rewrite dval_cons, dval_nil. destruct l; [congruence|]. cbn [length].
  replace (Z.of_nat (S (length l) - 1)) with (Z.of_nat (S (length l)) - 1) by lia. ring.
Qed.

Lemma digits_ok_removelast B l : digits_ok B l -> digits_ok B (removelast l).
Proof.
  destruct l as [|x l]; [auto|]. intros H. rewrite (split_top (x :: l)) in H by discriminate.
  apply digits_ok_app in H. tauto.
Qed.

Lemma top_ok B l : 0 < B -> digits_ok B l -> 0 <= top l < B.
Proof.
  intros HB H. destruct l as [|x l]; [cbn; lia|].
  rewrite (split_top (x :: l)) in H by discriminate. apply digits_ok_app in H.
  destruct H as [_ H]. inversion H; assumption.
Qed.

Lemma top_nonzero_bound l : digits_ok LB l -> l <> [] -> top l <> 0 ->
  LB ^ (Z.of_nat (length l) - 1) <= dval LB l.
Proof.
  intros O N T. rewrite (dval_top LB l N).
  pose proof (top_ok LB l ltac:(unfold LB; lia) O).
  pose proof (dval_bound LB (removelast l) LB_gt1 (digits_ok_removelast _ _ O)).
  assert (0 < LB ^ (Z.of_nat (length l) - 1)).
  { apply Z.pow_pos_nonneg; [unfold LB; lia|]. destruct l; [congruence|]. cbn [length]; lia. }
  nia.
Qed.

Lemma top_of_bound l : digits_ok LB l -> l <> [] -> LB ^ (Z.of_nat (length l) - 1) <= dval LB l -> top l <> 0.
Proof.
  intros O N H T. rewrite (dval_top LB l N), T in H.
  pose proof (dval_bound LB (removelast l) LB_gt1 (digits_ok_removelast _ _ O)) as B.
  rewrite removelast_len in B.
  replace (Z.of_nat (length l - 1)) with (Z.of_nat (length l) - 1) in B; [lia|].
  destruct l; [congruence|]. cbn [length]. lia.
Qed.

Lemma strip1_dval l : dval LB (strip1 l) = dval LB l.
Proof.
  unfold strip1. destruct (top l =? 0) eqn:E; [|reflexivity].
  destruct l as [|x l]; [reflexivity|]. rewrite (dval_top LB (x :: l)) by discriminate.
  apply Z.eqb_eq in E. rewrite E. lia.
Qed.

Lemma strip1_ok l : digits_ok LB l -> digits_ok LB (strip1 l).
Proof. intros. unfold strip1. destruct (_ =? _); [apply digits_ok_removelast|]; assumption. Qed.

Lemma strip_dval l : dval LB (strip l) = dval LB l.
Proof.
  induction l as [|x l IH]; [reflexivity|]. cbn [strip]. rewrite dval_cons, <- IH.
  destruct (strip l) as [|y r]; [|reflexivity].
  destruct (x =? 0) eqn:E; rewrite ?dval_cons, ?dval_nil; lia.
Qed.

Lemma strip_ok l : digits_ok LB l -> digits_ok LB (strip l).
Proof.
  induction 1 as [|x l Hx Hl IH]; [constructor|]. cbn [strip].
  destruct (strip l) as [|y r]; [|constructor; assumption].
  destruct (x =? 0); repeat constructor; lia.
Qed.

Lemma strip_top l : strip l <> [] -> top (strip l) <> 0.
Proof.
  induction l as [|x l IH]; [intros H; exact (fun _ => H eq_refl)|]. cbn [strip].
  destruct (strip l) as [|y r] eqn:E.
  - destruct (x =? 0) eqn:Ex; [congruence|]. intros _. cbn. lia.
  - intros _. specialize (IH ltac:(discriminate)). exact IH.
Qed.

Lemma strip_nil l : digits_ok LB l -> (strip l = [] <-> dval LB l = 0).
Proof.
  intros O. split; intros H.
  - rewrite <- strip_dval, H. reflexivity.
  - destruct (strip l) as [|y r] eqn:E; [reflexivity|exfalso].
    pose proof (top_nonzero_bound (strip l) (strip_ok l O)) as B.
    rewrite strip_dval, H in B. rewrite E in B at 1.
    specialize (B ltac:(discriminate) (strip_top l ltac:(congruence))).
    pose proof (LB_pos (length (strip l) - 1)).
    rewrite E in *. cbn [length] in *.
    replace (Z.of_nat (S (length r)) - 1) with (Z.of_nat (S (length r) - 1)) in B by lia. lia.
Qed.

(** ** Words, bytes, two's complement *)
Lemma words_spec n bs : length bs = (8 * n)%nat -> digits_ok 256 bs ->
  length (words n bs) = n /\ digits_ok LB (words n bs) /\ dval LB (words n bs) = dval 256 bs.
Proof.
  revert bs. induction n as [|n IH]; intros bs L O.
  - destruct bs; [|discriminate]. split; [reflexivity|split; [constructor|reflexivity]].
  - cbn [words]. destruct (IH (skipn 8 bs)) as (A & B & C).
    { rewrite skipn_length. lia. } { apply digits_ok_skipn, O. }
    assert (F : length (firstn 8 bs) = 8%nat) by (rewrite firstn_length; lia).
    pose proof (dval_bound 256 (firstn 8 bs) ltac:(lia) (digits_ok_firstn 256 8 bs O)) as D.
    rewrite F in D. change (256 ^ Z.of_nat 8) with LB in D.
    split; [cbn [length]; f_equal; exact A|]. split; [constructor; assumption|].
    rewrite dval_cons, C, (dval_split 256 8 bs) by lia.
    change (256 ^ Z.of_nat 8) with LB. reflexivity.
Qed.

Lemma bytes_of_spec l : digits_ok LB l ->
  let bs := flat_map (to_digits 256 8) l in
  length bs = (8 * length l)%nat /\ digits_ok 256 bs /\ dval 256 bs = dval LB l.
Proof.
  cbv zeta. induction 1 as [|x l Hx Hl (A & B & C)]; [repeat split; constructor|].
  cbn [flat_map]. split; [|split].
  - rewrite app_length, A, to_digits_length. cbn [length]. lia.
  - apply digits_ok_app. split; [apply to_digits_ok; lia|assumption].
  - rewrite dval_app, C, to_digits_length, to_digits_val, dval_cons by lia.
    change (256 ^ Z.of_nat 8) with LB. rewrite Z.mod_small by lia. reflexivity.
Qed.

Lemma inv_dval l : digits_ok LB l ->
  dval LB (map (fun y => LB - 1 - y) l) = LB ^ Z.of_nat (length l) - 1 - dval LB l /\
  digits_ok LB (map (fun y => LB - 1 - y) l).
Proof.
  induction 1 as [|x l Hx Hl [IH1 IH2]]; [split; [reflexivity|constructor]|].
  cbn [map]. split; [|constructor; [lia|assumption]].
  rewrite !dval_cons, IH1. cbn [length]. rewrite pow_len_S. ring.
Qed.

Lemma neg_limbs_spec l : digits_ok LB l -> dval LB l <> 0 ->
  exists l', neg_limbs l = Ok l' /\ length l' = length l /\ digits_ok LB l' /\
    dval LB l' = LB ^ Z.of_nat (length l) - dval LB l.
Proof.
  induction 1 as [|x l Hx Hl IH]; [cbn; congruence|]. intros NZ. rewrite dval_cons in NZ.
  cbn [neg_limbs]. destruct (x =? 0) eqn:E.
  - destruct IH as (l' & -> & A & B & C); [lia|]. exists (0 :: l').
    split; [reflexivity|]. split; [cbn; congruence|]. split; [constructor; [lia|assumption]|].
    rewrite !dval_cons, C. cbn [length]. rewrite pow_len_S. replace x with 0 by lia. ring.
  - destruct (inv_dval l Hl) as [A B]. eexists. split; [reflexivity|].
    assert (U : uwrap64 (- x) = LB - x) by (unfold uwrap64, LB in *; lia).
    split; [cbn [length]; rewrite map_length; reflexivity|]. rewrite U.
    split; [constructor; [lia|assumption]|].
    rewrite !dval_cons, A. cbn [length]. rewrite pow_len_S. ring.
Qed.

Lemma mask_top_spec e l : 0 <= e < 8 -> digits_ok LB l -> l <> [] ->
  length (mask_top e l) = length l /\ digits_ok LB (mask_top e l) /\
  dval LB (mask_top e l) = dval LB l mod 2 ^ (64 * Z.of_nat (length l) - 8 * e).
Proof.
  intros He. induction 1 as [|x l Hx Hl IH]; [congruence|]. intros _.
  assert (EQ : (LB - 1) / 2 ^ (8 * e) = Z.ones (64 - 8 * e)).
  { assert (e = 0 \/ e = 1 \/ e = 2 \/ e = 3 \/ e = 4 \/ e = 5 \/ e = 6 \/ e = 7)
      as [E|[E|[E|[E|[E|[E|[E|E]]]]]]] by lia; rewrite E; vm_compute; reflexivity. }
  destruct l as [|y l].
  - cbn [mask_top]. rewrite EQ, Z.land_ones by lia.
    assert (0 < 2 ^ (64 - 8 * e) <= LB).
    { split; [apply Z.pow_pos_nonneg; lia|]. unfold LB. apply Z.pow_le_mono_r; lia. }
    pose proof (Z.mod_pos_bound x (2 ^ (64 - 8 * e)) ltac:(lia)).
    split; [reflexivity|]. split; [constructor; [lia|constructor]|].
    rewrite !dval_cons, !dval_nil, !Z.mul_0_r, !Z.add_0_r. cbn [length].
    replace (64 * Z.of_nat 1 - 8 * e) with (64 - 8 * e) by lia. reflexivity.
  - destruct (IH ltac:(discriminate)) as (A & B & C).
    change (mask_top e (x :: y :: l)) with (x :: mask_top e (y :: l)).
    split; [cbn [length] in *; congruence|]. split; [constructor; assumption|].
    rewrite dval_cons, C, (dval_cons LB x). cbn [length].
    set (n := 64 * Z.of_nat (S (length l)) - 8 * e).
    replace (64 * Z.of_nat (S (S (length l))) - 8 * e) with (64 + n) by lia.
    rewrite Z.pow_add_r by lia. change (2 ^ 64) with LB.
    assert (0 < 2 ^ n) by (apply Z.pow_pos_nonneg; lia). pose proof LB_gt1.
    rewrite Z.rem_mul_r by lia.
    rewrite Z.mul_comm with (n := LB) (m := dval LB (y :: l)), Z.mod_add, (Z.mod_small x), Z.div_add, (Z.div_small x) by lia.
    reflexivity.
Qed.

(** ** Values *)
Definition mval (m : mpz) : Z := if m_neg m then - dval LB (m_limbs m) else dval LB (m_limbs m).

(** An argument of value [z], as from_oop makes it. *)
Definition arg_ok (m : mpz) (z : Z) : Prop :=
  digits_ok LB (m_limbs m) /\ m_limbs m <> [] /\
  (length (m_limbs m) = 1%nat \/ top (m_limbs m) <> 0) /\
  dval LB (m_limbs m) = Z.abs z /\ m_neg m = (z <? 0).

(** A result of value [z]. *)
Definition res_ok (m : mpz) (z : Z) : Prop :=
  digits_ok LB (m_limbs m) /\ mval m = z.

Lemma mk_res (neg : bool) l z : digits_ok LB l -> (if neg then - dval LB l else dval LB l) = z -> res_ok (mk neg l) z.
Proof.
  intros O V. destruct l; [|split; assumption].
  split; [constructor|]. cbn in *. destruct neg; cbn in V; assumption.
Qed.

Lemma arg_res m z : arg_ok m z -> res_ok m z.
Proof.
  intros (A & _ & _ & D & E). split; [assumption|]. unfold mval. rewrite E, D.
  destruct (z <? 0) eqn:?; lia.
Qed.

Lemma padding_spec (bs pad : list Z) : (length pad < 8)%nat -> Nat.divide 8 (length bs + length pad) ->
  padding (length bs) = length pad.
Proof.
  intros L [k D]. unfold padding. zify. lia.
Qed.

Lemma from_oop_ok i pad : int_arg i -> pad_of i pad ->
  exists m, from_oop i pad = Ok m /\ arg_ok m (st_val i).
Proof.
  intros A P. destruct i as [z|neg bs].
  - cbn in A. eexists. split; [reflexivity|]. cbn [st_val].
    split; [|split; [|split; [|split]]]; cbn [m_neg m_limbs].
    + constructor; [unfold uwrap64, LB; lia|constructor].
    + discriminate.
    + left; reflexivity.
    + rewrite dval_cons, dval_nil. unfold uwrap64. lia.
    + reflexivity.
  - destruct A as (O & N & AP & AN). destruct P as (PO & PL & PD).
    pose proof (padding_spec bs pad PL PD) as PE. destruct PD as [k PD].
    cbn [from_oop]. rewrite app_length, PD, Nat.div_mul by lia.
    destruct (words_spec k (bs ++ pad)) as (WL & WO & WV).
    { rewrite app_length. lia. } { apply digits_ok_app; auto. }
    rewrite dval_app in WV.
    set (src := words k (bs ++ pad)) in *.
    assert (SN : src <> []) by (intros E; rewrite E in WL; cbn in WL; lia).
    pose proof (dval_bound 256 bs ltac:(lia) O) as BB.
    pose proof (dval_bound 256 pad ltac:(lia) PO) as BP.
    set (n := Z.of_nat (length bs)) in *.
    assert (KN : 64 * Z.of_nat k - 8 * Z.of_nat (length pad) = 8 * n) by lia.
    assert (P2 : 256 ^ n = 2 ^ (8 * n)) by (apply p256; lia).
    assert (P2' : 2 ^ (8 * n) = 2 * 2 ^ (8 * n - 1)).
    { rewrite <- Z.pow_succ_r by lia. f_equal. lia. }
    (* the masked limbs hold the magnitude *)
    assert (M : exists d, (if neg then neg_limbs src else Ok src) = Ok d /\ length d = k /\ digits_ok LB d /\
      dval LB d mod 2 ^ (8 * n) = Z.abs (st_val (Large neg bs))).
    { destruct neg.
      - specialize (AN eq_refl). cbn [st_val] in *. fold n in AN |- *.
        assert (256 ^ n - 2 ^ (8 * n - 1) <= dval 256 bs) by lia.
        assert (0 < 2 ^ (8 * n - 1)) by (apply Z.pow_pos_nonneg; lia).
        assert (NZ : dval LB src <> 0) by (rewrite WV; nia).
        destruct (neg_limbs_spec src WO NZ) as (d & E1 & E2 & E3 & E4).
        exists d. split; [exact E1|]. split; [congruence|]. split; [exact E3|].
        rewrite E4, WV, WL, LBpow2 by lia. rewrite P2.
        replace (64 * Z.of_nat k) with (8 * Z.of_nat (length pad) + 8 * n) by lia.
        rewrite Z.pow_add_r by lia.
        set (M := 2 ^ (8 * n)) in *. set (Q := 2 ^ (8 * Z.of_nat (length pad))).
        replace (Q * M - (dval 256 bs + M * dval 256 pad)) with ((M - dval 256 bs) + (Q - dval 256 pad - 1) * M) by ring.
        rewrite Z.mod_add by lia. rewrite Z.mod_small by lia. lia.
      - specialize (AP eq_refl). cbn [st_val] in *. exists src. split; [reflexivity|].
        split; [assumption|]. split; [assumption|]. rewrite WV, P2.
        rewrite Z.mul_comm, Z.mod_add, Z.mod_small by lia. lia. }
    destruct M as (d & -> & DL & DO & DV).
    assert (DN : d <> []) by (intros E; rewrite E in DL; cbn in DL; lia).
    destruct src as [|s0 src']; [congruence|]. cbn [obind]. rewrite PE.
    destruct (mask_top_spec (Z.of_nat (length pad)) d ltac:(lia) DO DN) as (ML & MO & MV).
    rewrite DL, KN in MV. rewrite DV in MV.
    set (d' := mask_top _ d) in *. eexists. split; [reflexivity|].
    set (v := st_val (Large neg bs)) in *.
    assert (NZ : v <> 0) by (destruct neg; [specialize (AN eq_refl)|specialize (AP eq_refl)]; lia).
    assert (SG : neg = (v <? 0)) by (destruct neg; [specialize (AN eq_refl)|specialize (AP eq_refl)]; lia).
    assert (LOW : n = 1 \/ 2 ^ (8 * n - 9) <= Z.abs v) by (destruct neg; [specialize (AN eq_refl)|specialize (AP eq_refl)]; lia).
    pose proof (strip1_dval d') as SV. rewrite MV in SV.
    pose proof (strip1_ok d' MO) as SO.
    assert (SN' : strip1 d' <> []) by (intros E; rewrite E, dval_nil in SV; lia).
    assert (MK : mk neg (strip1 d') = mk_mpz neg (strip1 d')) by (destruct (strip1 d'); [congruence|reflexivity]).
    rewrite MK. split; [exact SO|]. cbn [m_limbs m_neg].
    split; [exact SN'|]. split; [|split; [exact SV|exact SG]].
    assert (D'N : d' <> []) by (intros E; rewrite E in ML; cbn in ML; lia).
    unfold strip1 in *. destruct (top d' =? 0) eqn:TE; [|right; lia].
    assert (k = 1 \/ k = 2 \/ 3 <= k)%nat as [K|[K|K]] by lia.
    + exfalso. pose proof (removelast_len d'). rewrite ML, DL, K in H. destruct (removelast d'); [congruence|discriminate].
    + left. rewrite removelast_len. lia.
    + right. apply top_of_bound; try assumption. rewrite removelast_len, ML, DL, SV.
      destruct LOW as [LOW|LOW]; [lia|].
      rewrite LBpow2 by lia. transitivity (2 ^ (8 * n - 9)); [|assumption].
      apply Z.pow_le_mono_r; lia.
Qed.

Lemma significant_some ext l n : significant ext l = Some n ->
  (1 <= n <= length l)%nat /\ l = firstn n l ++ repeat ext (length l - n) /\ nth (n - 1) l 0 <> ext.
Proof.
  revert n. induction l as [|x l IH]; intros n H; [discriminate|]. cbn [significant] in H.
  destruct (significant ext l) as [m|] eqn:E.
  - injection H as <-. destruct (IH m eq_refl) as (A & B & C).
    split; [cbn [length]; lia|]. split.
    + cbn [firstn length]. replace (S (length l) - S m)%nat with (length l - m)%nat by lia.
      cbn [app]. f_equal. exact B.
    + destruct m as [|m]; [lia|]. replace (S (S m) - 1)%nat with (S m) by lia. cbn [nth].
      replace (S m - 1)%nat with m in C by lia. exact C.
  - destruct (x =? ext) eqn:X; [discriminate|]. injection H as <-.
    assert (R : l = repeat ext (length l)).
    { clear -E. induction l as [|y l IH]; [reflexivity|]. cbn [significant] in E.
      destruct (significant ext l); [discriminate|]. destruct (y =? ext) eqn:Y; [|discriminate].
      cbn [length repeat]. f_equal; [lia|auto]. }
    split; [cbn [length]; lia|]. split.
    + cbn [firstn length]. replace (S (length l) - 1)%nat with (length l) by lia. cbn [app]. f_equal. exact R.
    + cbn [nth Nat.sub]. lia.
Qed.

Lemma significant_none ext l : significant ext l = None -> l = repeat ext (length l).
Proof.
  induction l as [|y l IH]; intros E; [reflexivity|]. cbn [significant] in E.
  destruct (significant ext l); [discriminate|]. destruct (y =? ext) eqn:Y; [|discriminate].
  cbn [length repeat]. f_equal; [lia|auto].
Qed.

Lemma dval_repeat_max n : dval 256 (repeat 255 n) = 256 ^ Z.of_nat n - 1.
Proof. induction n; [reflexivity|]. cbn [repeat]. rewrite dval_cons, IHn, pow_len_S. lia. Qed.

Lemma firstn_top (l : list Z) n : (1 <= n <= length l)%nat ->
  firstn n l = firstn (n - 1) l ++ [nth (n - 1) l 0].
Proof.
  revert n. induction l as [|x l IH]; intros n H; [cbn in H; lia|].
  destruct n as [|[|n]]; [lia|reflexivity|].
  change (firstn (S (S n)) (x :: l)) with (x :: firstn (S n) l).
  rewrite (IH (S n)) by (cbn [length] in H; lia).
  replace (S (S n) - 1)%nat with (S n) by lia. replace (S n - 1)%nat with n by lia. reflexivity.
Qed.

Lemma ar1 P d t v : 0 <= d < P -> 0 <= t < 128 -> v = d + P * t - 256 * P -> - (P * 32768) <= v < - (P * 128).
Proof. nia. Qed.
Lemma ar2 Q d t v : 0 <= d < Q * 2 -> 128 <= t < 255 -> v = d + Q * 2 * t - 256 * (Q * 2) -> - (Q * 256) <= v < - Q.
Proof. nia. Qed.
Lemma ar3 P d t : 0 <= d < P -> 128 <= t < 256 -> P * 128 <= d + P * t < P * 32768.
Proof. nia. Qed.
Lemma ar4 Q d t : 0 <= d < Q * 2 -> 0 < t < 128 -> Q <= d + Q * 2 * t < Q * 256.
Proof. nia. Qed.

Lemma oop_from_mpz_ok m z : res_ok m z -> exists i, oop_from_mpz m = Ok i /\ is_int_obj i z.
Proof.
  intros [O V]. unfold oop_from_mpz. unfold mval in V.
  pose proof (strip_nil (m_limbs m) O) as SNil.
  pose proof (strip_dval (m_limbs m)) as SD. pose proof (strip_ok _ O) as SO.
  pose proof (strip_top (m_limbs m)) as ST.
  destruct (strip (m_limbs m)) as [|x0 l0] eqn:SE.
  { exists (Small 0). split; [reflexivity|]. split; [cbn; lia|].
    assert (dval LB (m_limbs m) = 0) by (apply SNil; reflexivity).
    cbn [st_val]. destruct (m_neg m); lia. }
  set (l := x0 :: l0) in *.
  assert (LN : l <> []) by discriminate.
  specialize (ST LN). clear SNil. rewrite <- SD in V.
  pose proof (top_nonzero_bound l SO LN ST) as TB.
  pose proof (top_ok LB l ltac:(unfold LB; lia) SO) as TO.
  assert (LE1 : length l = 1%nat -> dval LB l = top l).
  { intros H. rewrite (dval_top LB l LN), H.
    pose proof (removelast_len l) as R. rewrite H in R. destruct (removelast l); [|discriminate].
    rewrite dval_nil. change (Z.of_nat 1 - 1) with 0. rewrite Z.pow_0_r. lia. }
  assert (GE2 : length l <> 1%nat -> LB <= dval LB l).
  { intros H. transitivity (LB ^ (Z.of_nat (length l) - 1)); [|assumption].
    rewrite <- (Z.pow_1_r LB) at 1. apply Z.pow_le_mono_r; [unfold LB; lia|].
    cbn [length] in *. subst l. cbn [length] in *. lia. }
  destruct (m_neg m) eqn:NE.
  - destruct ((length l =? 1)%nat && (top l <=? 2 ^ 62)) eqn:S1.
    { exists (Small (- top l)). split; [reflexivity|].
      apply andb_prop in S1. destruct S1 as [S1 S2]. apply Nat.eqb_eq in S1. specialize (LE1 S1).
      split; [cbn [canonical]; lia|cbn [st_val]; lia]. }
    assert (BIG : 2 ^ 62 < dval LB l).
    { destruct (Nat.eq_dec (length l) 1) as [E|E]; [specialize (LE1 E); rewrite E in S1; cbn [Nat.eqb andb] in S1; lia|].
      specialize (GE2 E). unfold LB in GE2 at 1. lia. }
    destruct (neg_limbs_spec l SO ltac:(lia)) as (l' & -> & L' & O' & V'). cbn [obind].
    destruct (bytes_of_spec l' O') as (BL & BO & BV). rewrite V', L', LBpow in *.
    set (bs := flat_map (to_digits 256 8) l') in *. cbv zeta.
    destruct (significant 255 bs) as [n|] eqn:SG.
    2:{ exfalso. apply significant_none in SG. rewrite SG, dval_repeat_max, BL in BV. lia. }
    destruct (significant_some _ _ _ SG) as (NR & NB & NT).
    pose proof (firstn_top bs n NR) as FT.
    assert (FO : digits_ok 256 (firstn n bs)) by (apply digits_ok_firstn, BO).
    assert (FL : length (firstn n bs) = n) by (rewrite firstn_length; lia).
    assert (FO1 : digits_ok 256 (firstn (n - 1) bs)) by (apply digits_ok_firstn, BO).
    assert (FL1 : length (firstn (n - 1) bs) = (n - 1)%nat) by (rewrite firstn_length; lia).
    assert (TR : 0 <= nth (n - 1) bs 0 < 256).
    { rewrite FT in FO. apply digits_ok_app in FO. destruct FO as [_ FO]. inversion FO; assumption. }
    assert (VB : dval 256 (firstn n bs) - 256 ^ Z.of_nat n = - dval LB l).
    { rewrite NB, dval_app, FL, dval_repeat_max in BV.
      assert (256 ^ Z.of_nat (8 * length l) = 256 ^ Z.of_nat n * 256 ^ Z.of_nat (length bs - n)).
      { rewrite <- Z.pow_add_r by lia. f_equal. lia. }
      rewrite H in BV. clear - BV. rewrite Z.mul_sub_distr_l in BV. lia. }
    set (t := nth (n - 1) bs 0) in *.
    pose proof (dval_bound 256 _ ltac:(lia) FO1) as B1. rewrite FL1 in B1.
    assert (VT : dval 256 (firstn n bs) = dval 256 (firstn (n - 1) bs) + 256 ^ Z.of_nat (n - 1) * t).
    { rewrite FT at 1. rewrite dval_app, FL1, dval_cons, dval_nil. ring. }
    assert (PN : 256 ^ Z.of_nat n = 256 * 256 ^ Z.of_nat (n - 1)).
    { rewrite <- Z.pow_succ_r by lia. f_equal. lia. }
    set (P := 256 ^ Z.of_nat (n - 1)) in *.
    assert (E8 : P = 2 ^ (8 * Z.of_nat n - 8)) by (unfold P; rewrite p256 by lia; f_equal; lia).
    destruct (t <? 128) eqn:T128.
    + eexists. split; [reflexivity|].
      assert (SV : st_val (Large true (firstn n bs ++ [255])) = z).
      { cbn [st_val]. rewrite dval_app, app_length, FL, dval_cons, dval_nil. cbn [length].
        replace (Z.of_nat (n + 1)) with (Z.succ (Z.of_nat n)) by lia.
        rewrite Z.pow_succ_r by lia. lia. }
      split; [|exact SV]. split; [apply digits_ok_app; split; [assumption|repeat constructor; lia]|].
      split; [discriminate|]. intros _. rewrite SV. rewrite app_length, FL. cbn [length].
      replace (8 * Z.of_nat (n + 1) - 1) with (8 * Z.of_nat n - 8 + 15) by lia.
      replace (8 * Z.of_nat (n + 1) - 9) with (8 * Z.of_nat n - 8 + 7) by lia.
      rewrite !Z.pow_add_r by lia. rewrite <- E8. change (2 ^ 15) with 32768. change (2 ^ 7) with 128.
      split; [lia|]. apply (ar1 P (dval 256 (firstn (n - 1) bs)) t); clear - B1 TR T128 VB VT PN V; lia.
    + eexists. split; [reflexivity|].
      assert (SV : st_val (Large true (firstn n bs)) = z).
      { cbn [st_val]. rewrite FL. lia. }
      split; [|exact SV]. split; [assumption|].
      split; [discriminate|]. intros _. rewrite SV. rewrite FL.
      assert (N8 : (8 <= n)%nat).
      { destruct (Nat.le_gt_cases 8 n) as [|LT]; [assumption|exfalso].
        assert (256 ^ Z.of_nat n <= 256 ^ 7) by (apply Z.pow_le_mono_r; lia).
        pose proof (dval_bound 256 _ ltac:(lia) FO). lia. }
      replace (8 * Z.of_nat n - 1) with (8 * Z.of_nat n - 9 + 8) by lia.
      replace (8 * Z.of_nat n - 8) with (8 * Z.of_nat n - 9 + 1) in E8 by lia.
      rewrite Z.pow_add_r in E8 by lia. rewrite Z.pow_add_r by lia.
      change (2 ^ 8) with 256. change (2 ^ 1) with 2 in E8.
      split; [lia|]. rewrite E8 in *. apply (ar2 _ (dval 256 (firstn (n - 1) bs)) t); clear - B1 TR T128 VB VT PN V NT; lia.
  - destruct ((length l =? 1)%nat && (top l <=? 2 ^ 62 - 1)) eqn:S1.
    { exists (Small (top l)). split; [reflexivity|].
      apply andb_prop in S1. destruct S1 as [S1 S2]. apply Nat.eqb_eq in S1. specialize (LE1 S1).
      split; [cbn [canonical]; lia|cbn [st_val]; lia]. }
    assert (BIG : 2 ^ 62 <= dval LB l).
    { destruct (Nat.eq_dec (length l) 1) as [E|E]; [specialize (LE1 E); rewrite E in S1; cbn [Nat.eqb andb] in S1; lia|].
      specialize (GE2 E). unfold LB in GE2 at 1. lia. }
    destruct (bytes_of_spec l SO) as (BL & BO & BV).
    set (bs := flat_map (to_digits 256 8) l) in *. cbv zeta.
    destruct (significant 0 bs) as [n|] eqn:SG.
    2:{ exfalso. apply significant_none in SG. rewrite SG, dval_repeat0 in BV. lia. }
    destruct (significant_some _ _ _ SG) as (NR & NB & NT).
    pose proof (firstn_top bs n NR) as FT.
    assert (FO : digits_ok 256 (firstn n bs)) by (apply digits_ok_firstn, BO).
    assert (FL : length (firstn n bs) = n) by (rewrite firstn_length; lia).
    assert (FO1 : digits_ok 256 (firstn (n - 1) bs)) by (apply digits_ok_firstn, BO).
    assert (FL1 : length (firstn (n - 1) bs) = (n - 1)%nat) by (rewrite firstn_length; lia).
    assert (TR : 0 <= nth (n - 1) bs 0 < 256).
    { rewrite FT in FO. apply digits_ok_app in FO. destruct FO as [_ FO]. inversion FO; assumption. }
    assert (VB : dval 256 (firstn n bs) = dval LB l).
    { rewrite NB, dval_app, FL, dval_repeat0 in BV. lia. }
    set (t := nth (n - 1) bs 0) in *.
    pose proof (dval_bound 256 _ ltac:(lia) FO1) as B1. rewrite FL1 in B1.
    assert (VT : dval 256 (firstn n bs) = dval 256 (firstn (n - 1) bs) + 256 ^ Z.of_nat (n - 1) * t).
    { rewrite FT at 1. rewrite dval_app, FL1, dval_cons, dval_nil. ring. }
    set (P := 256 ^ Z.of_nat (n - 1)) in *.
    assert (E8 : P = 2 ^ (8 * Z.of_nat n - 8)) by (unfold P; rewrite p256 by lia; f_equal; lia).
    destruct (128 <=? t) eqn:T128.
    + eexists. split; [reflexivity|].
      assert (SV : st_val (Large false (firstn n bs ++ [0])) = z).
      { cbn [st_val]. rewrite dval_app, FL, dval_cons, dval_nil. lia. }
      split; [|exact SV]. split; [apply digits_ok_app; split; [assumption|repeat constructor; lia]|].
      split; [|discriminate]. intros _. rewrite SV. rewrite app_length, FL. cbn [length].
      replace (8 * Z.of_nat (n + 1) - 1) with (8 * Z.of_nat n - 8 + 15) by lia.
      replace (8 * Z.of_nat (n + 1) - 9) with (8 * Z.of_nat n - 8 + 7) by lia.
      rewrite !Z.pow_add_r by lia. rewrite <- E8. change (2 ^ 15) with 32768. change (2 ^ 7) with 128.
      split; [lia|]. rewrite <- V, <- VB, VT. apply ar3; clear - B1 TR T128; lia.
    + eexists. split; [reflexivity|].
      assert (SV : st_val (Large false (firstn n bs)) = z).
      { cbn [st_val]. lia. }
      split; [|exact SV]. split; [assumption|].
      split; [|discriminate]. intros _. rewrite SV. rewrite FL.
      assert (N8 : (8 <= n)%nat).
      { destruct (Nat.le_gt_cases 8 n) as [|LT]; [assumption|exfalso].
        assert (256 ^ Z.of_nat n <= 256 ^ 7) by (apply Z.pow_le_mono_r; lia).
        pose proof (dval_bound 256 _ ltac:(lia) FO) as DB. rewrite FL in DB. lia. }
      replace (8 * Z.of_nat n - 1) with (8 * Z.of_nat n - 9 + 8) by lia.
      replace (8 * Z.of_nat n - 8) with (8 * Z.of_nat n - 9 + 1) in E8 by lia.
      rewrite Z.pow_add_r in E8 by lia. rewrite Z.pow_add_r by lia.
      change (2 ^ 8) with 256. change (2 ^ 1) with 2 in E8.
      split; [lia|]. rewrite E8 in *. rewrite <- V, <- VB, VT. apply ar4; clear - B1 TR T128 NT; lia.
Qed.
