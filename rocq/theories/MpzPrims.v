From Verif Require Import Base Digits IntRep IntRepProofs Mpz MpzSpec MpzProofs MpzOps MpzBits MpzGcd.

Lemma finish m z : res_ok m z -> answers (oop_from_mpz m) z.
Proof. intros H. destruct (oop_from_mpz_ok m z H) as (i & E & K). exists i. auto. Qed.

Lemma from_limb_val x : - 2 ^ 62 <= x < 2 ^ 62 -> from_limb (uwrap64 x) = Small x.
Proof.
  intros H. unfold from_limb. f_equal. unfold wrap64, uwrap64. lia.
Qed.

Lemma rem_small a d : d <> 0 -> - 2 ^ 62 <= d < 2 ^ 62 -> - 2 ^ 62 <= Z.rem a d < 2 ^ 62.
Proof.
  intros D R. pose proof (rem_signs a d D) as S. pose proof (mod_abs_bound a d D) as B.
  set (m := Z.abs a mod Z.abs d) in *. set (r := Z.rem a d) in *. clearbody m r. destruct (a <? 0); lia.
Qed.
Lemma mod_small a d : d <> 0 -> - 2 ^ 62 <= d < 2 ^ 62 -> - 2 ^ 62 <= a mod d < 2 ^ 62.
Proof.
  intros D R. destruct (Z.lt_trichotomy d 0) as [L|[L|L]]; [|contradiction|].
  - pose proof (Z.mod_neg_bound a d L). lia.
  - pose proof (Z.mod_pos_bound a d L). lia.
Qed.

Section prims.
  Context (a b : stint) (pa pb : list Z).
  Context (A : int_arg a) (PA : pad_of a pa) (B : int_arg b) (PB : pad_of b pb).

  Lemma binary_exact f g :
    (forall u v x y, arg_ok u x -> arg_ok v y -> exists r, f u v = Ok r /\ res_ok r (g x y)) ->
    answers (prim_binary a b pa pb f) (g (st_val a) (st_val b)).
  Proof.
    intros H. unfold prim_binary.
    destruct (from_oop_ok a pa A PA) as (u & -> & U). destruct (from_oop_ok b pb B PB) as (v & -> & V).
    cbn [obind]. destruct (H _ _ _ _ U V) as (r & -> & R). cbn [obind]. apply finish, R.
  Qed.

  Lemma plus_exact : answers (prim_plus a b pa pb) (st_val a + st_val b).
  Proof. apply (binary_exact _ Z.add), add_args. Qed.
  Lemma minus_exact : answers (prim_minus a b pa pb) (st_val a - st_val b).
  Proof. apply (binary_exact _ Z.sub), sub_args. Qed.
  Lemma times_exact : answers (prim_times a b pa pb) (st_val a * st_val b).
  Proof. apply (binary_exact _ Z.mul), mul_args. Qed.
  Lemma bitAnd_exact : answers (prim_bitAnd a b pa pb) (Z.land (st_val a) (st_val b)).
  Proof. apply (binary_exact _ Z.land). intros. eexists. split; [reflexivity|]. apply and_args; assumption. Qed.
  Lemma bitOr_exact : answers (prim_bitOr a b pa pb) (Z.lor (st_val a) (st_val b)).
  Proof. apply (binary_exact _ Z.lor). intros. eexists. split; [reflexivity|]. apply or_args; assumption. Qed.
  Lemma bitXor_exact : answers (prim_bitXor a b pa pb) (Z.lxor (st_val a) (st_val b)).
  Proof. apply (binary_exact _ Z.lxor). intros. eexists. split; [reflexivity|]. apply xor_args; assumption. Qed.

  Lemma cmp_exact : prim_cmp a b pa pb = Ok (Z.sgn (st_val a - st_val b)).
  Proof.
    unfold prim_cmp.
    destruct (from_oop_ok a pa A PA) as (u & -> & U). destruct (from_oop_ok b pb B PB) as (v & -> & V).
    cbn [obind]. f_equal. apply cmp_args; assumption.
  Qed.

  Lemma quo_exact : st_val b <> 0 -> answers (prim_quo a b pa pb) (Z.quot (st_val a) (st_val b)).
  Proof.
    intros NZ. unfold prim_quo. destruct (from_oop_ok a pa A PA) as (u & -> & U). cbn [obind].
    destruct b as [d|neg bs].
    - assert (R : - 2 ^ 62 <= d < 2 ^ 62) by exact B. cbn [st_val] in *. replace (d =? 0) with false by lia.
      destruct (tdiv_qr_si_ok u (st_val a) d U NZ R) as (q & -> & Q & _). cbn [obind]. apply finish, Q.
    - destruct (from_oop_ok _ pb B PB) as (v & V1 & V).
      rewrite V1. cbn [obind].
      destruct (tdiv_qr_ok u v _ _ U V NZ) as (q & r & -> & Q & _). cbn [obind]. apply finish, Q.
  Qed.

  Lemma rem_exact : st_val b <> 0 -> answers (prim_rem a b pa pb) (Z.rem (st_val a) (st_val b)).
  Proof.
    intros NZ. unfold prim_rem. destruct (from_oop_ok a pa A PA) as (u & -> & U). cbn [obind].
    destruct b as [d|neg bs].
    - assert (R : - 2 ^ 62 <= d < 2 ^ 62) by exact B. cbn [st_val] in *. replace (d =? 0) with false by lia.
      destruct (tdiv_qr_si_ok u (st_val a) d U NZ R) as (q & -> & Q & _). cbn [obind].
      rewrite from_limb_val by (apply rem_small; assumption). exists (Small (Z.rem (st_val a) d)).
      split; [reflexivity|]. split; [apply rem_small; assumption|reflexivity].
    - destruct (from_oop_ok _ pb B PB) as (v & V1 & V).
      rewrite V1. cbn [obind].
      destruct (tdiv_qr_ok u v _ _ U V NZ) as (q & r & -> & _ & R & _). cbn [obind]. apply finish, R.
  Qed.

  Lemma divExact_exact : st_val b <> 0 -> (st_val b | st_val a) ->
    answers (prim_divExact a b pa pb) (st_val a / st_val b).
  Proof.
    intros NZ DV. unfold prim_divExact. destruct (from_oop_ok a pa A PA) as (u & -> & U). cbn [obind].
    destruct b as [d|neg bs].
    - assert (R : - 2 ^ 62 <= d < 2 ^ 62) by exact B. cbn [st_val] in *. replace (d =? 0) with false by lia.
      destruct (tdiv_qr_si_ok u (st_val a) d U NZ R) as (q & -> & Q & _). cbn [obind].
      replace (st_val a / d) with (Z.quot (st_val a) d); [apply finish, Q|].
      destruct DV as [k ->]. rewrite Z.quot_mul, Z.div_mul by assumption. reflexivity.
    - destruct (from_oop_ok _ pb B PB) as (v & V1 & V).
      rewrite V1. cbn [obind].
      destruct (divexact_ok u v _ _ U V NZ DV) as (q & -> & Q). cbn [obind]. apply finish, Q.
  Qed.

  (** The one wrong case of // and \\. *)
  Definition fdiv_wrong : bool :=
    match b with Small _ => false | Large _ _ =>
      xorb (st_val a <? 0) (st_val b <? 0) && (Z.rem (st_val a) (st_val b) =? 0) end.

  Lemma fdiv_exact : st_val b <> 0 ->
    answers (prim_intDiv a b pa pb) (st_val a / st_val b - if fdiv_wrong then 1 else 0) /\
    answers (prim_modulo a b pa pb) (st_val a mod st_val b + if fdiv_wrong then st_val b else 0).
  Proof.
    intros NZ. unfold prim_intDiv, prim_modulo, fdiv_wrong.
    destruct (from_oop_ok a pa A PA) as (u & -> & U). cbn [obind].
    destruct b as [d|neg bs].
    - assert (R : - 2 ^ 62 <= d < 2 ^ 62) by exact B. cbn [st_val] in *. replace (d =? 0) with false by lia.
      destruct (fdiv_qr_si_ok u (st_val a) d U NZ R) as (q & -> & Q). cbn [obind].
      rewrite Z.sub_0_r, Z.add_0_r. split; [apply finish, Q|].
      rewrite from_limb_val by (apply mod_small; assumption). exists (Small (st_val a mod d)).
      split; [reflexivity|]. split; [apply mod_small; assumption|reflexivity].
    - destruct (from_oop_ok _ pb B PB) as (v & V1 & V).
      rewrite V1. cbn [obind].
      destruct (fdiv_qr_result u v _ _ U V NZ) as (q & r & -> & Q & R). cbn [obind].
      destruct (floor_quot (st_val a) _ NZ) as [FQ FM]. rewrite FQ, FM.
      destruct (xorb _ _); cbn [andb]; [destruct (_ =? 0) eqn:Z0; cbn [negb]|]; rewrite ?Z.sub_0_r, ?Z.add_0_r;
        split; apply finish; assumption.
  Qed.

  Lemma negated_exact : answers (prim_negated a pa) (- st_val a).
  Proof.
    unfold prim_negated. destruct (from_oop_ok a pa A PA) as (u & -> & U). cbn [obind].
    destruct (neg_args u _ U) as (r & -> & R). cbn [obind]. apply finish, R.
  Qed.
  Lemma bitInvert_exact : answers (prim_bitInvert a pa) (Z.lnot (st_val a)).
  Proof.
    unfold prim_bitInvert. destruct (from_oop_ok a pa A PA) as (u & -> & U). cbn [obind].
    destruct (com_args u _ U) as (r & -> & R). cbn [obind]. apply finish, R.
  Qed.

  Lemma bitShift_result c : b = Small c ->
    (0 < wrap32 c -> answers (prim_bitShift a b pa) (st_val a * 2 ^ wrap32 c)) /\
    (- 2 ^ 31 < wrap32 c <= 0 -> answers (prim_bitShift a b pa) (Z.quot (st_val a) (2 ^ - wrap32 c))).
  Proof.
    intros E. unfold prim_bitShift. rewrite E. destruct (from_oop_ok a pa A PA) as (u & -> & U). cbn [obind].
    set (n := wrap32 c). clearbody n. apply arg_res in U. split; intros H.
    - replace (n >? 0) with true by lia. apply finish, mul_2exp_ok; [assumption|lia].
    - replace (n >? 0) with false by lia. replace (n =? - 2 ^ 31) with false by lia.
      apply finish, div_2exp_ok; [assumption|lia].
  Qed.

  Lemma gcd_exact : st_val a <> 0 -> st_val b <> 0 ->
    answers (prim_gcd a b pa pb) (Z.gcd (st_val a) (st_val b)).
  Proof.
    intros NA NB. unfold prim_gcd.
    destruct (from_oop_ok a pa A PA) as (u & EU & U). destruct (from_oop_ok b pb B PB) as (v & EV & V).
    rewrite EU, EV. cbn [obind].
    destruct (gcd_args u v _ _ U V NA NB) as (r & E & R).
    assert (K : (match a, b with Small 0, _ | _, Small 0 => mpz_add u v | _, _ => mpz_gcd u v end) = Ok r).
    { destruct a as [[| |]|]; cbn [st_val] in NA; try congruence; destruct b as [[| |]|]; cbn [st_val] in NB; try congruence; exact E. }
    rewrite K. cbn [obind]. apply finish, R.
  Qed.
  Lemma gcd_zero : st_val a = 0 \/ st_val b = 0 ->
    answers (prim_gcd a b pa pb) (st_val a + st_val b).
  Proof.
    intros N. unfold prim_gcd.
    destruct (from_oop_ok a pa A PA) as (u & EU & U). destruct (from_oop_ok b pb B PB) as (v & EV & V).
    rewrite EU, EV. cbn [obind].
    destruct (add_args u v _ _ U V) as (r & E & R).
    assert (LZ : forall neg bs, int_arg (Large neg bs) -> st_val (Large neg bs) <> 0).
    { intros [] bs (_ & _ & P & Q) Z0; [specialize (Q eq_refl)|specialize (P eq_refl)]; rewrite Z0 in *; lia. }
    assert (K : (match a, b with Small 0, _ | _, Small 0 => mpz_add u v | _, _ => mpz_gcd u v end) = Ok r).
    { destruct N as [N|N].
      - destruct a as [x|neg bs]; [|exfalso; exact (LZ _ _ A N)]. cbn [st_val] in N. subst x. exact E.
      - destruct b as [x|neg bs]; [|exfalso; exact (LZ _ _ B N)]. cbn [st_val] in N. subst x. destruct a as [[| |]|]; exact E. }
    rewrite K. cbn [obind]. apply finish, R.
  Qed.
End prims.

Lemma answers_canonical o z i : answers o z -> o = Ok i -> canonical i.
Proof. intros (j & E & C & _) H. congruence. Qed.

Lemma oop_from_canonical m i : digits_ok LB (m_limbs m) -> oop_from_mpz m = Ok i -> canonical i.
Proof.
  intros O E. destruct (oop_from_mpz_ok m (mval m)) as (j & E' & C & _); [split; auto|]. congruence.
Qed.

Lemma exists_int z : exists i, is_int_obj i z.
Proof.
  set (n := Z.to_nat (Z.abs z)).
  assert (B : 0 <= Z.abs z < LB ^ Z.of_nat n).
  { split; [lia|]. subst n. rewrite Z2Nat.id by lia. apply Z.pow_gt_lin_r; [reflexivity|lia]. }
  destruct (oop_from_mpz_ok (mk (z <? 0) (to_digits LB n (Z.abs z))) z) as (i & _ & I); [|eauto].
  apply mk_res; [apply todig_ok|]. rewrite todig_small by assumption. destruct (z <? 0) eqn:E; lia.
Qed.

Lemma canonical_arg i : canonical i -> int_arg i.
Proof.
  destruct i as [z|neg bs]; [auto|]. intros C. pose proof (large_length_ge8 _ _ C).
  destruct C as (O & P & N). split; [assumption|]. split; [lia|].
  split; intros E; [specialize (P E)|specialize (N E)].
  - split; [|right]; lia.
  - split; [|right]; lia.
Qed.

(** All the primitives that answer Integers. *)
Definition results (a b : stint) (pa pb : list Z) : list (outcome stint) :=
  [prim_plus a b pa pb; prim_minus a b pa pb; prim_times a b pa pb; prim_bitAnd a b pa pb;
   prim_bitOr a b pa pb; prim_bitXor a b pa pb; prim_intDiv a b pa pb; prim_modulo a b pa pb;
   prim_quo a b pa pb; prim_rem a b pa pb; prim_divExact a b pa pb; prim_negated a pa;
   prim_bitInvert a pa; prim_bitShift a b pa; prim_gcd a b pa pb].

Lemma divexact_digits n d q : mpz_divexact n d = Ok q -> digits_ok LB (m_limbs q).
Proof.
  unfold mpz_divexact. destruct (_ || _); [intros [= <-]; constructor|].
  destruct (_ =? 1)%nat.
  - unfold mpz_tdiv_q_ui. destruct (m_limbs n) as [|x l]; [|set (xl := x :: l); clearbody xl].
    + cbn [obind]. intros [= <-]. constructor.
    + unfold mpn_divrem_1. destruct (_ =? 0); cbn [obind]; [discriminate|].
      intros H; injection H as <-. rewrite !mk_limbs. apply strip1_ok, todig_ok.
  - unfold mpn_divexact. destruct (_ || _); cbn [obind]; [discriminate|].
    intros H; injection H as <-. rewrite mk_limbs. apply todig_ok.
Qed.

Lemma results_canonical a b pa pb o i :
  int_arg a -> pad_of a pa -> int_arg b -> pad_of b pb ->
  In o (results a b pa pb) -> o = Ok i -> canonical i.
Proof.
  intros A PA B PB IN E.
  assert (LZ : forall neg bs, int_arg (Large neg bs) -> st_val (Large neg bs) <> 0).
  { intros [] bs (_ & _ & P & Q) Z0; [specialize (Q eq_refl)|specialize (P eq_refl)]; rewrite Z0 in *; lia. }
  assert (NZ : st_val b = 0 -> b = Small 0).
  { destruct b as [z|neg bs]; [intros H; f_equal; exact H|]. intros H. exfalso. exact (LZ _ _ B H). }
  unfold results in IN. cbn [In] in IN.
  assert (DZ : b = Small 0 -> forall p, prim_intDiv a b pa p <> Ok i /\ prim_modulo a b pa p <> Ok i /\
    prim_quo a b pa p <> Ok i /\ prim_rem a b pa p <> Ok i /\ prim_divExact a b pa p <> Ok i).
  { intros -> p. unfold prim_intDiv, prim_modulo, prim_quo, prim_rem, prim_divExact.
    destruct (from_oop a pa); cbn [obind Z.eqb]; repeat split; discriminate. }
  destruct IN as [<-|[<-|[<-|[<-|[<-|[<-|[<-|[<-|[<-|[<-|[<-|[<-|[<-|[<-|[<-|[]]]]]]]]]]]]]]]].
  - eapply answers_canonical; [apply (plus_exact a b pa pb); assumption|exact E].
  - eapply answers_canonical; [apply (minus_exact a b pa pb); assumption|exact E].
  - eapply answers_canonical; [apply (times_exact a b pa pb); assumption|exact E].
  - eapply answers_canonical; [apply (bitAnd_exact a b pa pb); assumption|exact E].
  - eapply answers_canonical; [apply (bitOr_exact a b pa pb); assumption|exact E].
  - eapply answers_canonical; [apply (bitXor_exact a b pa pb); assumption|exact E].
  - destruct (Z.eq_dec (st_val b) 0) as [Z0|Z0]; [exfalso; specialize (DZ (NZ Z0) pb); tauto|].
    eapply answers_canonical; [apply (proj1 (fdiv_exact a b pa pb A PA B PB Z0))|exact E].
  - destruct (Z.eq_dec (st_val b) 0) as [Z0|Z0]; [exfalso; specialize (DZ (NZ Z0) pb); tauto|].
    eapply answers_canonical; [apply (proj2 (fdiv_exact a b pa pb A PA B PB Z0))|exact E].
  - destruct (Z.eq_dec (st_val b) 0) as [Z0|Z0]; [exfalso; specialize (DZ (NZ Z0) pb); tauto|].
    eapply answers_canonical; [apply (quo_exact a b pa pb); assumption|exact E].
  - destruct (Z.eq_dec (st_val b) 0) as [Z0|Z0]; [exfalso; specialize (DZ (NZ Z0) pb); tauto|].
    eapply answers_canonical; [apply (rem_exact a b pa pb); assumption|exact E].
  - destruct (Z.eq_dec (st_val b) 0) as [Z0|Z0]; [exfalso; specialize (DZ (NZ Z0) pb); tauto|].
    unfold prim_divExact in E. destruct (from_oop_ok a pa A PA) as (u & EU & U). rewrite EU in E. cbn [obind] in E.
    destruct b as [d|neg bs].
    + cbn [st_val] in Z0. replace (d =? 0) with false in E by lia.
      destruct (tdiv_qr_si_ok u (st_val a) d U Z0 B) as (q & EQ & Q & _). rewrite EQ in E. cbn [obind] in E.
      eapply oop_from_canonical; [apply Q|exact E].
    + destruct (from_oop_ok _ pb B PB) as (v & EV & V). rewrite EV in E. cbn [obind] in E.
      destruct (mpz_divexact u v) as [q| | | |] eqn:EQ; cbn [obind] in E; try discriminate.
      eapply oop_from_canonical; [eapply divexact_digits; exact EQ|exact E].
  - eapply answers_canonical; [apply (negated_exact a pa); assumption|exact E].
  - eapply answers_canonical; [apply (bitInvert_exact a pa); assumption|exact E].
  - destruct b as [c|neg bs]; [|cbn in E; discriminate].
    destruct (bitShift_result a (Small c) pa A PA c eq_refl) as [P N].
    assert (W : - 2 ^ 31 <= wrap32 c < 2 ^ 31) by (unfold wrap32; lia).
    destruct (Z.lt_trichotomy (wrap32 c) 0) as [L|[L|L]].
    + destruct (Z.eq_dec (wrap32 c) (- 2 ^ 31)) as [M|M].
      * unfold prim_bitShift in E. rewrite M in E. destruct (from_oop a pa); cbn in E; discriminate.
      * eapply answers_canonical; [apply N; lia|exact E].
    + eapply answers_canonical; [apply N; lia|exact E].
    + eapply answers_canonical; [apply P; lia|exact E].
  - destruct (Z.eq_dec (st_val a) 0) as [A0|A0]; [|destruct (Z.eq_dec (st_val b) 0) as [B0|B0]].
    + eapply answers_canonical; [apply (gcd_zero a b pa pb); auto|exact E].
    + eapply answers_canonical; [apply (gcd_zero a b pa pb); auto|exact E].
    + eapply answers_canonical; [apply (gcd_exact a b pa pb); auto|exact E].
Qed.

(** bitShift: by a count of which the C code keeps all the bits. *)
Lemma bitShift_exact a c pa : int_arg a -> pad_of a pa -> - 2 ^ 31 < c < 2 ^ 31 ->
  (0 <= st_val a \/ 0 <= c \/ (2 ^ - c | st_val a)) ->
  answers (prim_bitShift a (Small c) pa) (Z.shiftl (st_val a) c).
Proof.
  intros A PA C S. assert (W : wrap32 c = c) by (unfold wrap32; lia).
  destruct (bitShift_result a (Small c) pa A PA c eq_refl) as [P N]. rewrite W in *.
  destruct (Z.lt_ge_cases 0 c) as [L|L].
  - rewrite Z.shiftl_mul_pow2 by lia. apply P. assumption.
  - rewrite Z.shiftl_div_pow2 by lia.
    assert (PP : 0 < 2 ^ - c) by (apply Z.pow_pos_nonneg; lia).
    replace (st_val a / 2 ^ - c) with (Z.quot (st_val a) (2 ^ - c)); [apply N; lia|].
    destruct S as [S|[S|[k S]]].
    + apply Z.quot_div_nonneg; lia.
    + replace c with 0 by lia. rewrite Z.pow_0_r, Z.quot_1_r, Z.div_1_r. reflexivity.
    + rewrite S, Z.quot_mul, Z.div_mul by lia. reflexivity.
Qed.
