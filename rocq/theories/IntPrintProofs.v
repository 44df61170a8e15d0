From Verif Require Import Base Digits IntRep IntRepProofs IntMath IntMathSpec IntMathProofs IntPrint IntPrintSpec.

(** The notation, built from its least significant digit. *)
Inductive Num (b : Z) : Z -> list Z -> Prop :=
| Num_one v : 0 <= v < b -> Num b v [v]
| Num_step v l : b <= v -> Num b (v / b) l -> Num b v (l ++ [v mod b]).

Lemma pos_value_snoc b l d : pos_value b (l ++ [d]) = pos_value b l * b + d.
Proof. unfold pos_value. rewrite fold_left_app. reflexivity. Qed.

Lemma Num_numeral b v l : 2 <= b -> Num b v l -> numeral b v l.
Proof.
  intros B. induction 1 as [v H|v l H N (F & V & L)].
  - split; [repeat constructor; lia|]. split; [unfold pos_value; cbn; lia|]. auto.
  - split; [apply Forall_app; split; [assumption|]; repeat constructor; apply Z.mod_pos_bound; lia|]. split.
    + rewrite pos_value_snoc, V. pose proof (Z.div_mod v b). lia.
    + destruct l as [|d r]; [contradiction|]. cbn [app]. intros E. specialize (L E). subst. exfalso.
      unfold pos_value in V. cbn in V. assert (1 <= v / b) by (apply Z.div_le_lower_bound; lia). lia.
Qed.

Lemma Num_exists b v : 2 <= b -> 0 <= v -> exists l, Num b v l.
Proof.
  intros B. revert v. apply (Zlt_0_ind (fun v => exists l, Num b v l)). intros v IH V.
  destruct (Z_lt_dec v b); [exists [v]; constructor; lia|].
  destruct (IH (v / b)) as [l L].
  { split; [apply Z.div_pos; lia|]. apply Z.div_lt; lia. }
  eexists. apply Num_step; [lia|eassumption].
Qed.

Lemma Num_length b v l : 2 <= b -> Num b v l -> 1 <= v -> b ^ (Z.of_nat (length l) - 1) <= v < b ^ Z.of_nat (length l).
Proof.
  intros B. induction 1 as [v H|v l H N IH]; intros V.
  - cbn [length]. change (Z.of_nat 1) with 1. rewrite Z.pow_1_r. cbn. lia.
  - assert (1 <= v / b) by (apply Z.div_le_lower_bound; lia). specialize (IH ltac:(assumption)).
    rewrite app_length. cbn [length]. replace (Z.of_nat (length l + 1)) with (Z.succ (Z.of_nat (length l))) by lia.
    rewrite Z.pow_succ_r by lia. replace (Z.succ (Z.of_nat (length l)) - 1) with (Z.succ (Z.of_nat (length l) - 1)) by lia.
    assert (L : (1 <= length l)%nat) by (inversion N; rewrite ?app_length; cbn [length]; lia).
    rewrite Z.pow_succ_r by lia. pose proof (Z.div_mod v b ltac:(lia)). pose proof (Z.mod_pos_bound v b ltac:(lia)).
    set (q := v / b) in *. set (r := v mod b) in *. clearbody q r. clear - B H IH H1 H2. nia.
Qed.

Lemma Num_0 b l : 2 <= b -> Num b 0 l -> l = [0].
Proof. intros B H. inversion H; subst; [reflexivity|lia]. Qed.

Lemma floor_log_unique b n e f : 2 <= b -> is_floor_log b n e -> is_floor_log b n f -> e = f.
Proof.
  intros B [E1 E2] [F1 F2].
  destruct (Z.lt_trichotomy e f) as [L|[L|L]]; [exfalso|assumption|exfalso].
  - assert (b ^ (e + 1) <= b ^ f) by (apply Z.pow_le_mono_r; lia). lia.
  - assert (b ^ (f + 1) <= b ^ e) by (apply Z.pow_le_mono_r; lia). lia.
Qed.

Lemma Num_floorLog b v l : 2 <= b -> 0 <= v -> Num b v l -> floorLog v b = Ok (Z.of_nat (length l) - 1).
Proof.
  intros B V N. destruct (Z.eq_dec v 0) as [->|].
  - rewrite floorLog_0 by assumption. rewrite (Num_0 b l B N). reflexivity.
  - destruct (floorLog_ok v b B ltac:(lia)) as (e & -> & E). f_equal.
    eapply floor_log_unique; [exact B|exact E|]. pose proof (Num_length b v l B N ltac:(lia)).
    assert (L : (1 <= length l)%nat) by (inversion N; rewrite ?app_length; cbn [length]; lia).
    split; [lia|]. replace (Z.of_nat (length l) - 1 + 1) with (Z.of_nat (length l)) by lia. assumption.
Qed.

Lemma digit_char_ok d : 0 <= d < 36 -> digit_char d = Ok (ascii_digit d).
Proof.
  intros D. unfold digit_char, ascii_digit. destruct (_ && _) eqn:?; [|lia]. f_equal. destruct (d <? 10) eqn:?; lia.
Qed.

Lemma str_put_last pre x tail c :
  str_put (pre ++ x :: tail) (Z.of_nat (length pre) + 1) c = Ok (pre ++ c :: tail).
Proof.
  unfold str_put. rewrite app_length. cbn [length].
  destruct (_ && _) eqn:?; [|lia].
  replace (Z.to_nat (Z.of_nat (length pre) + 1 - 1)) with (length pre) by lia.
  rewrite firstn_app, Nat.sub_diag, firstn_all, app_nil_r.
  change (S (length pre)) with (1 + length pre)%nat. rewrite Nat.add_comm.
  replace (length pre + 1)%nat with (S (length pre)) by lia.
  rewrite skipn_app, skipn_all2 by lia. replace (S (length pre) - length pre)%nat with 1%nat by lia. reflexivity.
Qed.

(** The last [length l] places before [tail]. *)
Lemma last_split {A} (pre : list A) : pre <> [] -> exists p x, pre = p ++ [x].
Proof. intros H. destruct (exists_last H) as (p & x & ->). eauto. Qed.

Lemma Num_len_pos b v l : Num b v l -> (1 <= length l)%nat.
Proof. intros H. inversion H; rewrite ?app_length; cbn [length]; lia. Qed.

Lemma replace_small_ok b : 2 <= b <= 36 -> forall v l, Num b v l -> forall fuel pre mid tail,
  length mid = length l -> (length l <= S fuel)%nat ->
  replace_small fuel v b (Z.of_nat (length (pre ++ mid))) (pre ++ mid ++ tail) =
  Ok (pre ++ map ascii_digit l ++ tail).
Proof.
  intros B. induction 1 as [v H|v l H N IH]; intros fuel pre mid tail LM F.
  - destruct mid as [|x [|]]; try discriminate. rewrite app_length. cbn [length app].
    assert (E : v mod b = v) by (apply Z.mod_small; assumption).
    destruct fuel; cbn [replace_small]; rewrite E, digit_char_ok by lia; cbn [obind];
    replace (Z.of_nat (length pre + 1)) with (Z.of_nat (length pre) + 1) by lia;
    rewrite str_put_last; cbn [obind]; rewrite Z.div_small by lia; reflexivity.
  - rewrite app_length in LM, F. cbn [length] in LM, F.
    pose proof (Num_len_pos b _ l N) as L1.
    destruct (last_split mid) as (m & x & ->); [intros ->; cbn in LM; lia|].
    rewrite app_length in LM; cbn [length] in LM.
    destruct fuel as [|f]; [lia|]. cbn [replace_small].
    rewrite digit_char_ok by (pose proof (Z.mod_pos_bound v b); lia). cbn [obind].
    replace (Z.of_nat (length (pre ++ m ++ [x]))) with (Z.of_nat (length (pre ++ m)) + 1) by (rewrite !app_length; cbn [length]; lia).
    replace (pre ++ (m ++ [x]) ++ tail) with ((pre ++ m) ++ x :: tail) by (rewrite <- !app_assoc; reflexivity).
    rewrite str_put_last. cbn [obind].
    assert (1 <= v / b) by (apply Z.div_le_lower_bound; lia).
    destruct (v / b >? 0) eqn:?; [|lia].
    replace (Z.of_nat (length (pre ++ m)) + 1 - 1) with (Z.of_nat (length (pre ++ m))) by lia.
    rewrite <- app_assoc. rewrite IH by lia. f_equal. rewrite map_app, <- !app_assoc. reflexivity.
Qed.

Lemma divide_bytes_ok r l : 2 <= r <= 36 -> digits_ok 256 l ->
  exists q, divide_bytes r l = Ok (q, dval 256 l mod r) /\ digits_ok 256 q /\ length q = length l /\
    dval 256 q = dval 256 l / r.
Proof.
  intros R. induction 1 as [|x l X L (q & E & Q & LQ & V)].
  - exists []. cbn [divide_bytes]. rewrite dval_nil, Z.mod_0_l, Z.div_0_l by lia. repeat split; constructor.
  - cbn [divide_bytes]. rewrite E. cbn [obind]. rewrite Z.shiftl_mul_pow2 by lia. change (2 ^ 8) with 256.
    set (v := dval 256 l) in *. pose proof (Z.mod_pos_bound v r ltac:(lia)) as M.
    set (t := v mod r * 256 + x).
    assert (T : t / r < 256) by (apply Z.div_lt_upper_bound; unfold t; lia).
    destruct (t / r <? 256) eqn:?; [|lia].
    assert (DM : x + 256 * v = (256 * (v / r)) * r + t).
    { unfold t. pose proof (Z.div_mod v r ltac:(lia)). lia. }
    exists (t / r :: q). rewrite dval_cons. fold v. rewrite DM.
    rewrite (Z.add_comm (_ * r)), Z.mod_add, Z.div_add by lia. split; [reflexivity|]. split.
    + constructor; [|assumption]. split; [apply Z.div_pos; unfold t; lia|assumption].
    + split; [cbn [length]; lia|]. rewrite dval_cons, V. reflexivity.
Qed.

Lemma top_byte l i : digits_ok 256 l -> (1 <= i)%nat -> (i <= length l)%nat ->
  (nth (i - 1) l 0 = 0 <-> dval 256 (firstn i l) < 256 ^ (Z.of_nat i - 1)).
Proof.
  intros O I L. destruct i as [|i]; [lia|]. replace (S i - 1)%nat with i by lia.
  replace (Z.of_nat (S i) - 1) with (Z.of_nat i) by lia.
  assert (E : firstn (S i) l = firstn i l ++ [nth i l 0]).
  { clear - L. revert i L. induction l as [|x l IH]; intros i L; [cbn in L; lia|].
    destruct i; [reflexivity|]. cbn [firstn nth app]. f_equal. apply IH. cbn in L; lia. }
  rewrite E, dval_app, firstn_length_le by lia. rewrite dval_cons, dval_nil.
  pose proof (dval_bound 256 (firstn i l) ltac:(lia) (digits_ok_firstn 256 i l O)) as D.
  rewrite firstn_length_le in D by lia.
  assert (N : 0 <= nth i l 0).
  { pose proof O as O'. unfold digits_ok in O'. rewrite Forall_forall in O'. destruct (O' (nth i l 0)); [apply nth_In; lia|assumption]. }
  clear - D N. set (d := dval 256 (firstn i l)) in *. clearbody d. split; [intros ->; lia|]. nia.
Qed.

Lemma firstn_pred_dval l i : digits_ok 256 l -> (S i <= length l)%nat -> nth i l 0 = 0 ->
  dval 256 (firstn i l) = dval 256 (firstn (S i) l).
Proof.
  intros O L Z0. assert (E : firstn (S i) l = firstn i l ++ [nth i l 0]).
  { clear - L. revert i L. induction l as [|x l IH]; intros i L; [cbn in L; lia|].
    destruct i; [reflexivity|]. cbn [firstn nth app]. f_equal. apply IH. cbn in L; lia. }
  rewrite E, dval_app, Z0, dval_cons, dval_nil. ring.
Qed.

Lemma replace_large_ok b : 2 <= b <= 36 -> forall v l, Num b v l -> forall fuel i src pre mid tail,
  length mid = length l -> (length l <= fuel)%nat ->
  digits_ok 256 src -> (1 <= i <= length src)%nat -> dval 256 (firstn i src) = v ->
  256 ^ (Z.of_nat i - 1) <= 2 * v ->
  replace_large fuel b i src (Z.of_nat (length (pre ++ mid))) (pre ++ mid ++ tail) =
  Ok (pre ++ map ascii_digit l ++ tail).
Proof.
  intros B. induction 1 as [v H|v l H N IH]; intros fuel i src pre mid tail LM F O I V P.
  - (* the last digit *)
    assert (i = 1%nat).
    { destruct i as [|[|i]]; [lia|reflexivity|exfalso].
      assert (256 ^ 1 <= 256 ^ (Z.of_nat (S (S i)) - 1)) by (apply Z.pow_le_mono_r; lia). lia. }
    subst i. destruct mid as [|x [|]]; try discriminate. rewrite app_length. cbn [length app].
    destruct fuel as [|f]; [cbn in F; lia|]. cbn [replace_large].
    destruct (divide_bytes_ok b (firstn 1 src) B (digits_ok_firstn 256 1 src O)) as (q & -> & Q & LQ & VQ).
    cbn [obind]. rewrite V, Z.mod_small by assumption. rewrite digit_char_ok by lia. cbn [obind].
    replace (Z.of_nat (length pre + 1)) with (Z.of_nat (length pre) + 1) by lia.
    rewrite str_put_last. cbn [obind]. rewrite V, Z.div_small in VQ by assumption.
    rewrite firstn_length_le in LQ by lia. destruct q as [|y [|]]; try discriminate.
    rewrite dval_cons, dval_nil in VQ. replace y with 0 by lia. reflexivity.
  - rewrite app_length in LM, F. cbn [length] in LM, F.
    pose proof (Num_len_pos b _ l N) as L1.
    destruct (last_split mid) as (m & x & ->); [intros ->; cbn in LM; lia|].
    rewrite app_length in LM; cbn [length] in LM.
    destruct fuel as [|f]; [lia|]. cbn [replace_large].
    destruct (divide_bytes_ok b (firstn i src) B (digits_ok_firstn 256 i src O)) as (q & -> & Q & LQ & VQ).
    cbn [obind]. rewrite V in *. rewrite digit_char_ok by (pose proof (Z.mod_pos_bound v b); lia). cbn [obind].
    replace (Z.of_nat (length (pre ++ m ++ [x]))) with (Z.of_nat (length (pre ++ m)) + 1) by (rewrite !app_length; cbn [length]; lia).
    replace (pre ++ (m ++ [x]) ++ tail) with ((pre ++ m) ++ x :: tail) by (rewrite <- !app_assoc; reflexivity).
    rewrite str_put_last. cbn [obind].
    replace (Z.of_nat (length (pre ++ m)) + 1 - 1) with (Z.of_nat (length (pre ++ m))) by lia.
    rewrite firstn_length_le in LQ by lia.
    set (src' := q ++ skipn i src).
    assert (O' : digits_ok 256 src') by (apply digits_ok_app; split; [assumption|apply digits_ok_skipn; assumption]).
    assert (L' : length src' = length src) by (unfold src'; rewrite app_length, skipn_length; lia).
    assert (F' : firstn i src' = q).
    { unfold src'. rewrite firstn_app, LQ, Nat.sub_diag. cbn [firstn]. rewrite app_nil_r.
      apply firstn_all2. lia. }
    assert (1 <= v / b) by (apply Z.div_le_lower_bound; lia).
    pose proof (top_byte src' i O' ltac:(lia) ltac:(lia)) as T. rewrite F', VQ in T.
    destruct (nth (i - 1) src' 0 =? 0) eqn:Z0.
    + apply Z.eqb_eq in Z0. destruct T as [T _]. specialize (T Z0).
      destruct i as [|[|j]]; [lia| |].
      { replace (Z.of_nat 1 - 1) with 0 in T by lia. rewrite Z.pow_0_r in T. lia. }
      rewrite <- app_assoc. rewrite IH; try assumption; try lia.
      * f_equal. rewrite map_app, <- !app_assoc. reflexivity.
      * rewrite (firstn_pred_dval src' (S j)); [rewrite F'; assumption|assumption|lia|].
        replace (S (S j) - 1)%nat with (S j) in Z0 by lia. assumption.
      * replace (Z.of_nat (S (S j)) - 1) with (Z.succ (Z.of_nat (S j) - 1)) in P by lia.
        rewrite Z.pow_succ_r in P by lia.
        assert (Hd : v / 36 <= v / b) by (apply Z.div_le_compat_l; lia).
        set (w := 256 ^ (Z.of_nat (S j) - 1)) in *. assert (0 < w) by (apply Z.pow_pos_nonneg; lia).
        clearbody w. generalize dependent (v / b). clear - P H1. intros. lia.
    + destruct T as [_ T]. assert (256 ^ (Z.of_nat i - 1) <= v / b).
      { apply Z.eqb_neq in Z0. destruct (Z_lt_dec (v / b) (256 ^ (Z.of_nat i - 1))) as [Y|]; [|lia].
        specialize (T Y). contradiction. }
      rewrite <- app_assoc. rewrite IH; try assumption; try lia.
      * f_equal. rewrite map_app, <- !app_assoc. reflexivity.
      * rewrite F'. assumption.
Qed.

(** The object of a non-negative integer *)
Lemma large_bytes_ok v : 2 ^ 62 <= v -> canonical (Large false (large_bytes v)) /\ st_val (Large false (large_bytes v)) = v.
Proof.
  intros V. unfold large_bytes. set (e := Z.log2 v). set (n := Z.to_nat ((e + 1) / 8 + 1)).
  destruct (Z.log2_spec v ltac:(lia)) as [L1 L2]. fold e in L1, L2.
  assert (E : 62 <= e) by (apply Z.log2_le_pow2; lia).
  assert (N : Z.of_nat n = (e + 1) / 8 + 1) by (unfold n; rewrite Z2Nat.id; lia).
  assert (U : v < 2 ^ (8 * Z.of_nat n - 1)).
  { apply Z.lt_le_trans with (2 ^ Z.succ e); [assumption|]. apply Z.pow_le_mono_r; lia. }
  assert (D : 2 ^ (8 * Z.of_nat n - 9) <= v).
  { apply Z.le_trans with (2 ^ e); [|assumption]. apply Z.pow_le_mono_r; lia. }
  assert (W : st_val (Large false (to_digits 256 n v)) = v).
  { unfold st_val. rewrite to_digits_val by lia. rewrite Z.sub_0_r. apply Z.mod_small.
    rewrite pow256. split; [lia|]. apply Z.lt_trans with (2 ^ (8 * Z.of_nat n - 1)); [assumption|].
    apply Z.pow_lt_mono_r; lia. }
  split; [|assumption]. unfold canonical. rewrite W, to_digits_length. split; [apply to_digits_ok; lia|].
  split; [intros _; lia|discriminate].
Qed.

Lemma int_obj_canonical v : 0 <= v -> is_int_obj (int_obj v) v.
Proof.
  intros V. unfold int_obj. destruct (is_small v) eqn:SM; unfold is_small in SM.
  - split; [cbn; lia|reflexivity].
  - apply large_bytes_ok. lia.
Qed.

Lemma replace_ok b v l pre mid : 2 <= b <= 36 -> 0 <= v -> Num b v l -> length mid = length l ->
  replace_with_base v b (pre ++ mid) = Ok (pre ++ map ascii_digit l).
Proof.
  intros B V N L. unfold replace_with_base.
  assert (LB : v < 1 \/ (2 ^ (Z.of_nat (length l) - 1) <= v)).
  { destruct (Z_lt_dec v 1); [auto|right]. pose proof (Num_length b v l ltac:(lia) N ltac:(lia)).
    apply Z.le_trans with (b ^ (Z.of_nat (length l) - 1)); [|lia].
    apply Z.pow_le_mono_l; lia. }
  unfold int_obj. destruct (is_small v) eqn:SM; unfold is_small in SM.
  - assert (F : (length l <= S (log_fuel v))%nat).
    { unfold log_fuel. destruct LB as [|LB]; [replace v with 0 in N by lia; rewrite (Num_0 b l ltac:(lia) N); cbn; lia|].
      assert (1 <= v). { assert (0 < 2 ^ (Z.of_nat (length l) - 1)) by (apply Z.pow_pos_nonneg; [lia|]; pose proof (Num_len_pos b v l N); lia). lia. }
      apply Z.log2_le_pow2 in LB; lia. }
    pose proof (replace_small_ok b B v l N (log_fuel v) pre mid [] L F) as R.
    rewrite !app_nil_r in R. exact R.
  - pose proof (large_bytes_ok v ltac:(lia)) as [C W].
    set (bs := large_bytes v) in *. pose proof (large_length_ge8 _ _ C) as L8.
    destruct C as (O & C & _). specialize (C eq_refl).
    cbn [st_val] in W, C. rewrite Z.sub_0_r in W, C. rewrite W in C.
    assert (F : (length l <= 8 * length bs)%nat).
    { destruct LB as [|LB]; [lia|].
      assert (A : 2 ^ (Z.of_nat (length l) - 1) < 2 ^ (8 * Z.of_nat (length bs) - 1)) by lia.
      apply Z.pow_lt_mono_r_iff in A; lia. }
    assert (P : 256 ^ (Z.of_nat (length bs) - 1) <= 2 * v).
    { change 256 with (2 ^ 8). rewrite <- Z.pow_mul_r by lia.
      replace (8 * (Z.of_nat (length bs) - 1)) with (Z.succ (8 * Z.of_nat (length bs) - 9)) by lia.
      rewrite Z.pow_succ_r by lia. lia. }
    assert (V' : dval 256 (firstn (length bs) bs) = v) by (rewrite firstn_all; assumption).
    pose proof (replace_large_ok b B v l N (8 * length bs) (length bs) bs pre mid [] L F O ltac:(lia) V' P) as R.
    rewrite !app_nil_r in R. exact R.
Qed.

Lemma print_ok n b : 2 <= b <= 36 -> exists l, Num b (Z.abs n) l /\
  print_string n b = Ok ((if n <? 0 then [45] else []) ++ map ascii_digit l).
Proof.
  intros B. destruct (Num_exists b (Z.abs n) ltac:(lia) ltac:(lia)) as [l N]. exists l. split; [assumption|].
  unfold print_string. pose proof (Num_len_pos b _ l N). destruct (n <? 0) eqn:SG.
  - replace (- n) with (Z.abs n) by lia.
    rewrite (Num_floorLog b (Z.abs n) l) by (assumption || lia). cbn [obind].
    unfold new_string. replace (Z.to_nat (Z.of_nat (length l) - 1 + 2)) with (S (length l)) by lia.
    cbn [repeat]. pose proof (str_put_last [] 0 (repeat 0 (length l)) 45) as P. cbn [app length] in P.
    change (Z.of_nat 0 + 1) with 1 in P. rewrite P. cbn [obind].
    apply (replace_ok b (Z.abs n) l [45] (repeat 0 (length l)) B ltac:(lia) N). apply repeat_length.
  - replace (Z.abs n) with n in N by lia. rewrite (Num_floorLog b n l) by (assumption || lia). cbn [obind].
    unfold new_string. replace (Z.to_nat (Z.of_nat (length l) - 1 + 1)) with (length l) by lia.
    apply (replace_ok b n l [] (repeat 0 (length l)) B ltac:(lia) N). apply repeat_length.
Qed.

Lemma print_notation n b : 2 <= b <= 36 -> exists s, print_string n b = Ok s /\ notation b n s.
Proof.
  intros B. destruct (print_ok n b B) as (l & N & ->). eexists. split; [reflexivity|].
  exists l. split; [apply Num_numeral; [lia|assumption]|reflexivity].
Qed.

(** ** Reading *)
Lemma upper_id x : x < 97 -> upper x = x.
Proof. intros H. unfold upper. destruct (97 <=? x) eqn:E; [lia|reflexivity]. Qed.
Lemma upper_low x : 65 <= x <= 90 -> upper (x + 32) = x.
Proof.
  intros H. unfold upper. destruct (97 <=? x + 32) eqn:E; [|lia]. destruct (x + 32 <=? 122) eqn:F; [|lia].
  cbn [andb]. lia.
Qed.
Lemma is_digit_ascii b d : 2 <= b <= 36 -> 0 <= d < b ->
  is_digit b (upper (ascii_digit d)) = Some d /\ is_digit b (upper (lowercase (ascii_digit d))) = Some d.
Proof.
  intros B D. assert (U : upper (ascii_digit d) = ascii_digit d /\ upper (lowercase (ascii_digit d)) = ascii_digit d).
  { assert (R : 48 <= ascii_digit d <= 57 \/ 65 <= ascii_digit d <= 90) by (unfold ascii_digit; destruct (d <? 10) eqn:?; lia).
    generalize dependent (ascii_digit d). intros x R. split; [apply upper_id; lia|].
    unfold lowercase. destruct (_ && _) eqn:C; [apply upper_low; lia|apply upper_id; lia]. }
  destruct U as [-> ->]. assert (E : is_digit b (ascii_digit d) = Some d); [|auto].
  assert (C : char_digit (ascii_digit d) = Some d).
  { unfold char_digit, ascii_digit. destruct (d <? 10) eqn:T.
    - destruct ((48 <=? 48 + d) && (48 + d <=? 57)) eqn:X; [f_equal|]; lia.
    - destruct ((48 <=? 65 + (d - 10)) && (65 + (d - 10) <=? 57)) eqn:X; [lia|].
      destruct ((65 <=? 65 + (d - 10)) && (65 + (d - 10) <=? 90)) eqn:Y; [f_equal|]; lia. }
  unfold is_digit. rewrite C. destruct ((0 <=? d) && (d <=? b - 1)) eqn:X; [reflexivity|lia].
Qed.

Definition stops (b : Z) (rest : list Z) : Prop :=
  match rest with
  | [] => True
  | c :: _ => is_digit b (upper c) = None
  end.

Lemma read_digits_ok b sgn f rest : 2 <= b <= 36 -> stops b rest ->
  (forall d, 0 <= d < b -> is_digit b (upper (f d)) = Some d) ->
  forall l acc, Forall (fun d => 0 <= d < b) l ->
  read_digits b sgn acc (map f l ++ rest) = (fold_left (fun a d => a * b + sgn * d) l acc, rest).
Proof.
  intros B ST FD. induction l as [|d l IH]; intros acc H.
  - cbn [map app fold_left]. destruct rest as [|c r]; [reflexivity|]. cbn [read_digits]. cbn in ST. rewrite ST. reflexivity.
  - inversion H; subst. cbn [map app read_digits fold_left]. rewrite FD by assumption. rewrite IH by assumption.
    do 2 f_equal. ring.
Qed.
Lemma fold_sgn b sgn l : forall acc,
  fold_left (fun a d => a * b + sgn * d) l (sgn * acc) = sgn * fold_left (fun a d => a * b + d) l acc.
Proof.
  induction l as [|d l IH]; intros acc; [reflexivity|]. cbn [fold_left].
  replace (sgn * acc * b + sgn * d) with (sgn * (acc * b + d)) by ring. apply IH.
Qed.

Definition rest_ok (b : Z) (rest : list Z) : Prop :=
  stops b rest /\
  match rest with
  | [] => True
  | c :: _ => upper c <> 46 /\ (b = 10 -> upper c <> 69)
  end.

Lemma read_ok b n l f rest : 2 <= b <= 36 -> numeral b (Z.abs n) l -> rest_ok b rest ->
  (forall d, 0 <= d < b -> is_digit b (upper (f d)) = Some d /\ f d <> 45) ->
  read_from b ((if n <? 0 then [45] else []) ++ map f l ++ rest) = ReadInt n rest.
Proof.
  intros B (F & V & L) [ST R] FD.
  assert (G : forall sgn, read_digits b sgn 0 (map f l ++ rest) = (sgn * Z.abs n, rest)).
  { intros sgn. rewrite (read_digits_ok b sgn f rest B ST) by (assumption || (intros; apply FD; assumption)).
    f_equal. replace 0 with (sgn * 0) at 1 by ring. rewrite fold_sgn. f_equal. exact V. }
  destruct l as [|d l]; [contradiction|]. inversion F; subst.
  destruct (FD d) as [D1 D2]; [assumption|].
  cbn [map app] in G |- *. unfold read_from.
  assert (K : forall sgn m, sgn * Z.abs n = m ->
     (if match is_digit b (upper (f d)) with Some _ => true | None => upper (f d) =? 46 end then
        let (int, s) := read_digits b sgn 0 (f d :: map f l ++ rest) in
        match s with
        | [] => ReadInt int []
        | c :: _ =>
          if (upper c =? 46) || ((b =? 10) && (upper c =? 69)) then ReadOther
          else ReadInt int s
        end
      else ReadInt 0 (f d :: map f l ++ rest)) = ReadInt m rest).
  { intros sgn m <-. rewrite D1, G. destruct rest as [|c r]; [reflexivity|].
    destruct R as [R1 R2]. destruct (upper c =? 46) eqn:?; [lia|]. cbn [orb].
    destruct (b =? 10) eqn:?; cbn [andb]; [|reflexivity]. destruct (upper c =? 69) eqn:?; [lia|reflexivity]. }
  destruct (n <? 0) eqn:SG; cbn [app].
  - change (45 =? 45) with true. cbv iota. apply K. lia.
  - destruct (f d =? 45) eqn:?; [lia|]. apply K. lia.
Qed.

Lemma numeral_unique b v l l' : 2 <= b -> numeral b v l -> numeral b v l' -> l = l'.
Proof.
  intros B. revert v l'. induction l as [|d l IH] using rev_ind; intros v l' (F & V & L) (F' & V' & L'); [contradiction|].
  destruct l' as [|d' l' _] using rev_ind; [contradiction|].
  apply Forall_app in F as [F D]. apply Forall_app in F' as [F' D']. inversion D; inversion D'; subst.
  rewrite !pos_value_snoc in *.
  assert (NN : forall l, Forall (fun d => 0 <= d < b) l -> forall acc, 0 <= acc -> 0 <= fold_left (fun acc d => acc * b + d) l acc).
  { clear - B. induction 1; intros acc A; cbn [fold_left]; [assumption|]. apply IHForall. nia. }
  pose proof (NN l F 0 ltac:(lia)) as P. pose proof (NN l' F' 0 ltac:(lia)) as P'.
  fold (pos_value b l) in P. fold (pos_value b l') in P'.
  assert (E : pos_value b l = pos_value b l' /\ d = d') by (apply (Z.div_mod_unique b); [left; assumption|left; assumption|rewrite !(Z.mul_comm b); symmetry; exact V']).
  destruct E as [E ->]. f_equal.
  assert (Z0 : forall k r e, Forall (fun d => 0 <= d < b) (k :: r) -> (k = 0 -> r ++ [e] = []) -> 0 < pos_value b (k :: r)).
  { clear - B. intros k r e F H. assert (k <> 0) by (intros K; specialize (H K); destruct r; discriminate).
    inversion F; subst. unfold pos_value. cbn [fold_left]. clear F H.
    assert (0 < 0 * b + k) by lia. revert H H4. generalize (0 * b + k). clear - B.
    induction r as [|x r IH]; intros acc A F; cbn [fold_left]; [assumption|]. inversion F; subst. apply IH; [nia|assumption]. }
  destruct l as [|k r], l' as [|k' r']; [reflexivity| | |].
  - exfalso. cbn [app] in L'. specialize (Z0 k' r' d' F' L'). rewrite <- E in Z0. cbn in Z0. lia.
  - exfalso. cbn [app] in L. specialize (Z0 k r d' F L). rewrite E in Z0. cbn in Z0. lia.
  - apply (IH (pos_value b (k :: r))).
    + split; [assumption|]. split; [reflexivity|]. cbn [app] in L. intros K. specialize (L K). destruct r; discriminate.
    + split; [assumption|]. split; [symmetry; assumption|]. cbn [app] in L'. intros K. specialize (L' K). destruct r'; discriminate.
Qed.

Lemma upper_other c : ~ 97 <= c <= 122 -> upper c = c.
Proof. intros H. unfold upper. destruct ((97 <=? c) && (c <=? 122)) eqn:E; [lia|reflexivity]. Qed.
Lemma after_rest_ok b rest : after_number rest -> rest_ok b rest.
Proof.
  destruct rest as [|c r]; [split; exact I|]. intros (H1 & H2 & H3 & H4). unfold rest_ok, stops.
  rewrite upper_other by assumption. split; [|split; [assumption|lia]].
  unfold is_digit, char_digit. destruct ((48 <=? c) && (c <=? 57)) eqn:?; [lia|].
  destruct ((65 <=? c) && (c <=? 90)) eqn:?; [lia|]. reflexivity.
Qed.

Lemma ascii_digit_range d : 0 <= d < 36 -> 48 <= ascii_digit d <= 57 \/ 65 <= ascii_digit d <= 90.
Proof. intros D. unfold ascii_digit. destruct (d <? 10) eqn:?; lia. Qed.
Lemma lowercase_range d : 0 <= d < 36 -> lowercase (ascii_digit d) <> 45.
Proof.
  intros D. pose proof (ascii_digit_range d D). unfold lowercase. destruct (_ && _) eqn:?; lia.
Qed.

Lemma print_read n b rest : 2 <= b <= 36 -> after_number rest ->
  exists s, print_string n b = Ok s /\ notation b n s /\
    read_from b (s ++ rest) = ReadInt n rest /\ read_from b (map lowercase s ++ rest) = ReadInt n rest.
Proof.
  intros B R. destruct (print_ok n b B) as (l & N & ->). apply Num_numeral in N; [|lia].
  eexists. split; [reflexivity|]. split; [exists l; auto|]. rewrite <- app_assoc. split.
  - apply read_ok; auto using after_rest_ok. intros d D. split; [apply is_digit_ascii; assumption|].
    pose proof (ascii_digit_range d). lia.
  - rewrite map_app, map_map, <- app_assoc.
    replace (map lowercase (if n <? 0 then [45] else [])) with (if n <? 0 then [45] else []) by (destruct (n <? 0); reflexivity).
    apply read_ok; auto using after_rest_ok. intros d D. split; [apply is_digit_ascii; assumption|].
    apply lowercase_range. lia.
Qed.

Lemma as_integer_loop_ok sgn rest : after_number rest -> forall l acc, Forall (fun d => 0 <= d < 10) l ->
  as_integer_loop sgn acc (map ascii_digit l ++ rest) = fold_left (fun a d => a * 10 + sgn * d) l acc.
Proof.
  intros R. induction l as [|d l IH]; intros acc F.
  - destruct rest as [|c r]; [reflexivity|]. cbn [map app as_integer_loop fold_left]. destruct R as (R1 & _).
    destruct ((c - 48 <? 0) || (c - 48 >? 9)) eqn:E; [reflexivity|lia].
  - inversion F; subst. cbn [map app as_integer_loop fold_left].
    assert (A : ascii_digit d - 48 = d) by (unfold ascii_digit; destruct (d <? 10) eqn:?; lia). rewrite A.
    destruct ((d <? 0) || (d >? 9)) eqn:E; [lia|]. apply IH. assumption.
Qed.

Lemma as_integer_ok n rest s : after_number rest -> print_string n 10 = Ok s -> as_integer (s ++ rest) = n.
Proof.
  intros R. destruct (print_ok n 10 ltac:(lia)) as (l & N & ->). apply Num_numeral in N; [|lia].
  intros E. injection E as <-. destruct N as (F & V & L). rewrite <- app_assoc.
  destruct l as [|d l]; [contradiction|].
  destruct (n <? 0) eqn:SG.
  - cbn [app]. unfold as_integer. change ((45 - 48 <? 0) || (45 - 48 >? 9)) with true. change (45 =? 45) with true. cbv iota.
    rewrite as_integer_loop_ok by assumption. pose proof (fold_sgn 10 (-1) (d :: l) 0) as FS.
    rewrite Z.mul_0_r in FS. rewrite FS. fold (pos_value 10 (d :: l)). rewrite V.  clear - SG. lia.
  - cbn [app map]. inversion F; subst. unfold as_integer.
    assert (A : ascii_digit d - 48 = d) by (unfold ascii_digit; destruct (d <? 10) eqn:?; lia). rewrite A.
    destruct ((d <? 0) || (d >? 9)) eqn:E; [lia|]. rewrite as_integer_loop_ok by assumption.
    unfold pos_value in V. cbn [fold_left] in V. rewrite Z.mul_0_l, Z.add_0_l in V.
    pose proof (fold_sgn 10 1 l d) as FS. rewrite !Z.mul_1_l in FS. rewrite FS, V. lia.
Qed.

Lemma repeat_app_eq {A} (x : A) a b : repeat x (a + b) = repeat x a ++ repeat x b.
Proof. apply repeat_app. Qed.

Lemma print_radix_ok n b : 2 <= b <= 36 -> exists bs s,
  print_string b 10 = Ok bs /\ print_string n b = Ok s /\ print_radix n b = Ok (bs ++ 114 :: s).
Proof.
  intros B. destruct (print_ok n b B) as (l & N & E1). destruct (print_ok b 10 ltac:(lia)) as (k & M & E2).
  replace (b <? 0) with false in E2 by lia. cbn [app] in E2. rewrite Z.abs_eq in M by lia.
  exists (map ascii_digit k), ((if n <? 0 then [45] else []) ++ map ascii_digit l).
  split; [assumption|]. split; [assumption|]. unfold print_radix.
  rewrite (Num_floorLog 10 b k) by (assumption || lia). cbn [obind].
  pose proof (Num_len_pos _ _ _ M). pose proof (Num_len_pos _ _ _ N).
  replace (if n <? 0 then - n else n) with (Z.abs n) by (destruct (n <? 0) eqn:?; lia).
  rewrite (Num_floorLog b (Z.abs n) l) by (assumption || lia). cbn [obind]. rewrite E2.
  replace (Z.of_nat (length k) - 1 + 1) with (Z.of_nat (length k)) by lia.
  set (e := if n <? 0 then 1%nat else 0%nat).
  replace (if n <? 0 then Z.of_nat (length l) - 1 + Z.of_nat (length k) + 2 + 1
           else Z.of_nat (length l) - 1 + Z.of_nat (length k) + 2)
    with (Z.of_nat (length k + 1 + e + length l)) by (unfold e; destruct (n <? 0); lia).
  unfold new_string. rewrite Nat2Z.id, repeat_app_eq.
  rewrite (replace_ok b (Z.abs n) l _ _ B ltac:(lia) N (repeat_length _ _)). cbn [obind].
  rewrite Nat2Z.id. rewrite firstn_all2 by (rewrite map_length; lia).
  replace (length k + 1 + e)%nat with (length k + S e)%nat by lia. rewrite repeat_app_eq, <- app_assoc.
  rewrite skipn_app, skipn_all2 by (rewrite repeat_length; lia). rewrite repeat_length, Nat.sub_diag. cbn [app skipn].
  cbn [repeat app]. replace (Z.of_nat (length k)) with (Z.of_nat (length (map ascii_digit k))) by (rewrite map_length; reflexivity).
  rewrite str_put_last. cbn [obind]. unfold e. destruct (n <? 0).
  - replace (Z.of_nat (length (map ascii_digit k)) + 2) with (Z.of_nat (length (map ascii_digit k ++ [114])) + 1)
      by (rewrite app_length; cbn [length]; lia).
    cbn [repeat app].
    replace (map ascii_digit k ++ 114 :: 0 :: map ascii_digit l) with ((map ascii_digit k ++ [114]) ++ 0 :: map ascii_digit l)
      by (rewrite <- app_assoc; reflexivity).
    rewrite str_put_last, <- app_assoc. reflexivity.
  - reflexivity.
Qed.

Lemma print_padded_ok n p size b : 2 <= b <= 36 -> exists l, numeral b (Z.abs n) l /\
  let sign := if n <? 0 then [45] else [] in
  print_padded n p size b =
    Ok (sign ++ repeat p (Z.to_nat (size - Z.of_nat (length (sign ++ l)))) ++ map ascii_digit l).
Proof.
  intros B. destruct (Num_exists b (Z.abs n) ltac:(lia) ltac:(lia)) as [l N]. exists l.
  split; [apply Num_numeral; [lia|assumption]|]. cbv zeta. unfold print_padded.
  replace (if n <? 0 then - n else n) with (Z.abs n) by (destruct (n <? 0) eqn:?; lia).
  rewrite (Num_floorLog b (Z.abs n) l) by (assumption || lia). cbn [obind]. pose proof (Num_len_pos _ _ _ N) as L.
  set (k := Z.to_nat (size - Z.of_nat (length ((if n <? 0 then [45] else []) ++ l)))).
  unfold new_string. destruct (n <? 0) eqn:SG.
  - cbn [app length] in k. replace (Z.to_nat (Z.max (Z.of_nat (length l) - 1 + 2) size)) with (S (k + length l)) by lia.
    cbn [Z.eqb Pos.eqb repeat]. pose proof (str_put_last [] 0 (repeat 0 (k + length l)) 45) as P. cbn [app length] in P.
    change (Z.of_nat 0 + 1) with 1 in P. rewrite P. cbn [obind length]. rewrite repeat_length.
    replace (Z.to_nat (2 - 1)) with 1%nat by lia. cbn [firstn app].
    replace (Z.of_nat (S (k + length l)) - (Z.of_nat (length l) - 1 + 2) + 2 - 1) with (Z.of_nat (S k)) by lia.
    replace (Z.to_nat (Z.of_nat (S k) - 2 + 1)) with k by lia. rewrite Nat2Z.id. cbn [skipn].
    rewrite repeat_app_eq, skipn_app, skipn_all2 by (rewrite repeat_length; lia).
    rewrite repeat_length, Nat.sub_diag. cbn [skipn app].
    rewrite (app_comm_cons (repeat p k)).
    rewrite (replace_ok b (Z.abs n) l _ _ B ltac:(lia) N (repeat_length _ _)). reflexivity.
  - cbn [app length] in k. replace (Z.to_nat (Z.max (Z.of_nat (length l) - 1 + 1) size)) with (k + length l)%nat by lia.
    cbn [Z.eqb Pos.eqb obind]. rewrite repeat_length. change (Z.to_nat (1 - 1)) with 0%nat. cbn [firstn app].
    replace (Z.of_nat (k + length l) - (Z.of_nat (length l) - 1 + 1) + 1 - 1) with (Z.of_nat k) by lia.
    replace (Z.to_nat (Z.of_nat k - 1 + 1)) with k by lia. rewrite Nat2Z.id.
    rewrite repeat_app_eq, skipn_app, skipn_all2 by (rewrite repeat_length; lia).
    rewrite repeat_length, Nat.sub_diag. cbn [skipn app].
    rewrite (replace_ok b (Z.abs n) l _ _ B ltac:(lia) N (repeat_length _ _)). reflexivity.
Qed.
