(** Proofs about number literals. *)
From Verif Require Import Base Digits IntRep IntRepProofs SmallInt SmallIntProofs Lex LexSpec IntPrintSpec.
Local Open Scope Z_scope.

Lemma uwrap64_mod x : uwrap64 x = x mod 2 ^ 64.
Proof. reflexivity. Qed.

Lemma uwrap64_small x : 0 <= x < 2 ^ 64 -> uwrap64 x = x.
Proof. intro H. rewrite uwrap64_mod. apply Z.mod_small, H. Qed.

Lemma base_digit_ascii b d : 2 <= b <= 36 -> 0 <= d < b ->
  is_base_digit (ascii_digit d) b = true /\ digit_to_int (ascii_digit d) = d /\ ascii_digit d <> 95.
Proof.
  unfold is_base_digit, digit_to_int, ascii_digit. intros B D.
  destruct (Z.ltb_spec d 10).
  - replace ((48 + d <? 48) || ((57 <? 48 + d) && (48 + d <? 65)) || (90 <? 48 + d)) with false by lia.
    destruct (Z.leb_spec 65 (48 + d)); lia.
  - replace ((65 + (d - 10) <? 48) || ((57 <? 65 + (d - 10)) && (65 + (d - 10) <? 65)) || (90 <? 65 + (d - 10))) with false by lia.
    destruct (Z.leb_spec 65 (65 + (d - 10))); lia.
Qed.

Definition big_bound (neg : bool) : Z := if neg then 3 * 2 ^ 62 else 2 ^ 62 - 1.

Lemma large_bound_eq neg b d : 2 <= b <= 36 -> 0 <= d < b ->
  large_bound neg b d = (big_bound neg - d) / b.
Proof.
  intros B D. unfold large_bound, big_bound. f_equal.
  destruct neg.
  - change (uwrap64 min_st_int) with (3 * 2 ^ 62). apply uwrap64_small. lia.
  - change (uwrap64 max_st_int) with (2 ^ 62 - 1). apply uwrap64_small. lia.
Qed.

Definition scan_inv (neg : bool) (V : Z) (r : scanned) : Prop :=
  sc_int r = V mod 2 ^ 64 /\ sc_large r = (big_bound neg <? V).

Lemma scan_inv_step neg b V d r : 2 <= b <= 36 -> 0 <= d < b -> 0 <= V ->
  scan_inv neg V r ->
  scan_inv neg (V * b + d)
    (mkscan (uwrap64 (uwrap64 (sc_int r * b) + d))
       (sc_large r || (large_bound neg b d <? sc_int r)) (sc_digits r ++ [d]) true).
Proof.
  intros B D HV [E1 E2]. split; cbn [sc_int sc_large].
  - rewrite E1, !uwrap64_mod.
    rewrite Z.mul_mod_idemp_l, Z.add_mod_idemp_l by lia. reflexivity.
  - rewrite large_bound_eq by auto. rewrite E2.
    assert (HB : 0 <= big_bound neg - 36 /\ big_bound neg < 2 ^ 64) by (unfold big_bound; destruct neg; lia).
    destruct (Z.ltb_spec (big_bound neg) V) as [L|L].
    + cbn [orb]. symmetry. apply Z.ltb_lt. nia.
    + cbn [orb]. rewrite E1, Z.mod_small by lia.
      revert HB L. generalize (big_bound neg). intros m HB L.
      destruct (Z.ltb_spec ((m - d) / b) V) as [K|K]; symmetry.
      * apply Z.ltb_lt. pose proof (Z.mul_succ_div_gt (m - d) b). nia.
      * apply Z.ltb_ge. pose proof (Z.mul_div_le (m - d) b). nia.
Qed.

Definition stop_char (b : Z) (rest : list Z) : Prop :=
  match rest with [] => True | c :: _ => c <> 95 /\ is_base_digit c b = false end.

Lemma scan_loop_ok neg b : 2 <= b <= 36 -> forall ds w, digit_text b ds w ->
  forall r V rest, 0 <= V -> scan_inv neg V r -> stop_char b rest ->
  exists r', scan_loop neg b (w ++ rest) r = (r', rest) /\
    scan_inv neg (fold_left (fun acc d => acc * b + d) ds V) r' /\
    sc_digits r' = sc_digits r ++ ds /\
    (ds <> [] -> sc_one r' = true) /\ (ds = [] -> sc_one r' = sc_one r).
Proof.
  intros B. induction 1 as [|ds w H IH|d ds w D H IH]; intros r V rest HV I1 St.
  - cbn [app fold_left]. exists r. rewrite app_nil_r. repeat split; auto; try apply I1; try easy.
    destruct rest as [|c t]; cbn; [reflexivity|]. destruct St as [N F].
    rewrite F. destruct (Z.eqb_spec c 95); [easy|reflexivity].
  - cbn [app scan_loop]. apply IH; auto.
  - cbn [app scan_loop fold_left].
    destruct (base_digit_ascii b d B D) as (E1 & E2 & E3).
    destruct (Z.eqb_spec (ascii_digit d) 95); [easy|]. rewrite E1, E2.
    destruct (IH (mkscan (uwrap64 (uwrap64 (sc_int r * b) + d))
       (sc_large r || (large_bound neg b d <? sc_int r)) (sc_digits r ++ [d]) true)
       (V * b + d) rest) as (r' & F1 & F2 & F3 & F4 & F5); auto; try nia.
    { now apply scan_inv_step. }
    exists r'. split; [exact F1|]. split; [exact F2|]. split; [|split; [|easy]].
    + rewrite F3. cbn. now rewrite <- app_assoc.
    + intros _. destruct ds; [now apply F5|now apply F4].
Qed.

Lemma scan_digits_ok neg b ds w rest : 2 <= b <= 36 -> digit_text b ds w -> ds <> [] ->
  stop_char b rest ->
  exists r, scan_digits neg false b (w ++ rest) = Ok (r, rest) /\
    sc_int r = pos_value b ds mod 2 ^ 64 /\
    sc_large r = (big_bound neg <? pos_value b ds) /\ sc_digits r = ds.
Proof.
  intros B H NE St.
  destruct (scan_loop_ok neg b B ds w H (mkscan 0 false [] false) 0 rest) as (r & F1 & [F2 F2'] & F3 & F4 & _); auto.
  - lia.
  - split; [reflexivity|]. cbn. unfold big_bound. destruct neg; reflexivity.
  - exists r. unfold scan_digits. rewrite F1, F4 by auto. auto.
Qed.

(** ** bytes *)

Lemma mul_add_length b c l : length (mul_add b c l) = length l.
Proof. revert c; induction l; intro c; cbn; auto. Qed.

Lemma mul_add_ok b l : 2 <= b <= 36 -> forall c, digits_ok 256 l -> 0 <= c < 256 ->
  digits_ok 256 (mul_add b c l) /\
  dval 256 (mul_add b c l) = (dval 256 l * b + c) mod 256 ^ Z.of_nat (length l).
Proof.
  intros B. induction l as [|x l IH]; intros c O1 C.
  - cbn. split; [constructor|]. rewrite Z.mod_1_r. reflexivity.
  - inversion O1 as [|? ? X O2]; subst. cbn [mul_add].
    destruct (IH ((x * b + c) / 256)) as [D1 D2]; auto.
    { split; [apply Z.div_pos; nia|apply Z.div_lt_upper_bound; nia]. }
    split.
    + constructor; auto. apply Z.mod_pos_bound; lia.
    + rewrite !dval_cons, D2. cbn [length]. rewrite pow_len_S.
      set (P := 256 ^ Z.of_nat (length l)). assert (HP : 0 < P) by (apply Z.pow_pos_nonneg; lia).
      rewrite Z.rem_mul_r by lia.
      replace ((x + 256 * dval 256 l) * b + c) with (x * b + c + dval 256 l * b * 256) by lia.
      rewrite Z.mod_add by lia. rewrite Z.div_add by lia.
      f_equal. f_equal. f_equal. lia.
Qed.

Lemma pos_value_app b l d : pos_value b (l ++ [d]) = pos_value b l * b + d.
Proof. unfold pos_value. now rewrite fold_left_app. Qed.

Lemma pos_value_bound b ds : 2 <= b -> Forall (fun d => 0 <= d < b) ds ->
  0 <= pos_value b ds < b ^ Z.of_nat (length ds).
Proof.
  intro B. induction ds as [|d ds IH] using rev_ind; [cbn; lia|].
  intro F. apply Forall_app in F. destruct F as [F1 F2]. inversion F2; subst.
  rewrite pos_value_app, app_length. cbn [length]. rewrite Nat.add_1_r, pow_len_S.
  specialize (IH F1). nia.
Qed.

Lemma digit_text_ok b ds w : digit_text b ds w -> Forall (fun d => 0 <= d < b) ds.
Proof. induction 1; auto. Qed.

Lemma mul_fold b ds n : 2 <= b <= 36 -> Forall (fun d => 0 <= d < b) ds ->
  let l := fold_left (fun l d => mul_add b d l) ds (repeat 0 n) in
  length l = n /\ digits_ok 256 l /\ dval 256 l = pos_value b ds mod 256 ^ Z.of_nat n.
Proof.
  intros B. induction ds as [|d ds IH] using rev_ind; cbn zeta; intro F.
  - cbn [fold_left]. rewrite repeat_length, dval_repeat0. repeat split; auto.
    apply digits_ok_repeat; lia.
  - apply Forall_app in F. destruct F as [F1 F2]. inversion F2; subst.
    specialize (IH F1). cbn zeta in IH. rewrite fold_left_app; cbn [fold_left].
    destruct IH as (E1 & E2 & E3).
    destruct (mul_add_ok b (fold_left (fun l d => mul_add b d l) ds (repeat 0 n)) B d) as [G1 G2]; auto; [lia|].
    rewrite mul_add_length. repeat split; auto.
    rewrite G2, E1, E3, pos_value_app.
    rewrite <- (Z.add_mod_idemp_l (_ * b)), Z.mul_mod_idemp_l, Z.add_mod_idemp_l by (apply Z.pow_nonzero; lia).
    reflexivity.
Qed.

Lemma mul_fold_exact b ds : 2 <= b <= 36 -> Forall (fun d => 0 <= d < b) ds -> ds <> [] ->
  let l := fold_left (fun l d => mul_add b d l) ds (repeat 0 (length ds)) in
  length l = length ds /\ digits_ok 256 l /\ dval 256 l = pos_value b ds /\
  pos_value b ds < 128 * 256 ^ (Z.of_nat (length ds) - 1).
Proof.
  intros B F NE. destruct (mul_fold b ds (length ds) B F) as (E1 & E2 & E3).
  assert (HL : pos_value b ds < 128 * 256 ^ (Z.of_nat (length ds) - 1)).
  { pose proof (pos_value_bound b ds ltac:(lia) F) as [_ U].
    destruct ds as [|d ds]; [easy|]. cbn [length] in *. rewrite pow_len_S in U.
    replace (Z.of_nat (S (length ds)) - 1) with (Z.of_nat (length ds)) by lia.
    assert (b ^ Z.of_nat (length ds) <= 256 ^ Z.of_nat (length ds)) by (apply Z.pow_le_mono_l; lia).
    assert (0 < b ^ Z.of_nat (length ds)) by (apply Z.pow_pos_nonneg; lia). nia. }
  cbn zeta. repeat split; auto. rewrite E3. apply Z.mod_small.
  split; [apply (pos_value_bound b ds); auto; lia|].
  destruct ds as [|d ds]; [easy|]. cbn [length] in *. rewrite pow_len_S.
  replace (Z.of_nat (S (length ds)) - 1) with (Z.of_nat (length ds)) in HL by lia.
  assert (0 < 256 ^ Z.of_nat (length ds)) by (apply Z.pow_pos_nonneg; lia). lia.
Qed.

Lemma strip_spec x l : exists m, l = strip x l ++ repeat x m /\
  (strip x l = [] \/ exists p y, strip x l = p ++ [y] /\ y <> x).
Proof.
  induction l as [|y l (m & E & H)]; [exists 0%nat; cbn; auto|]. cbn [strip].
  destruct (strip x l) as [|z k] eqn:Ek.
  - destruct (Z.eqb_spec y x) as [->|NE].
    + exists (S m). cbn. split; [now rewrite E|auto].
    + exists m. cbn. split; [now rewrite E|]. right. exists [], y. auto.
  - exists m. cbn. split; [now rewrite E at 1|]. right.
    destruct H as [H|(p & u & H & NE)]; [easy|]. exists (y :: p), u. split; auto. cbn. now rewrite H.
Qed.

Lemma last_snoc (p : list Z) y : last (p ++ [y]) 0 = y.
Proof. apply last_last. Qed.

Lemma dval_snoc p y : dval 256 (p ++ [y]) = dval 256 p + 256 ^ Z.of_nat (length p) * y.
Proof. rewrite dval_app. cbn. lia. Qed.

Lemma pow256' n : 256 ^ Z.of_nat n = 2 ^ (8 * Z.of_nat n).
Proof. apply pow256. Qed.

Lemma fix_pos l v : digits_ok 256 l -> dval 256 l = v -> 2 ^ 62 <= v ->
  v < 128 * 256 ^ (Z.of_nat (length l) - 1) ->
  exists k, fix_sign (fun x => 127 <? x) (strip 0 l) l = Ok k /\ is_int_obj (Large false k) v.
Proof.
  intros O1 V LV U. destruct (strip_spec 0 l) as (m & E & H).
  destruct H as [H|(p & y & H & NE)].
  { exfalso. rewrite H in E. cbn in E. rewrite E, dval_repeat0 in V. lia. }
  rewrite H in *.
  assert (Len : length l = (length p + 1 + m)%nat) by (rewrite E, !app_length, repeat_length; cbn; lia).
  unfold fix_sign.
  assert (D : p ++ [y] = match p ++ [y] with [] => [0] | a :: b => a :: b end) by (destruct p; reflexivity).
  rewrite last_snoc.
  assert (Ok1 : digits_ok 256 (p ++ [y]) /\ digits_ok 256 (repeat 0 m)).
  { rewrite E in O1. now apply digits_ok_app in O1. }
  assert (Vk : dval 256 (p ++ [y]) = v).
  { rewrite E, dval_app, dval_repeat0 in V. lia. }
  destruct Ok1 as [Ok1 _]. pose proof Ok1 as Ok2. apply digits_ok_app in Ok2. destruct Ok2 as [Op Oy].
  apply Forall_inv in Oy; rename Oy into Y.
  pose proof (dval_bound 256 p ltac:(lia) Op) as Bp.
  assert (Vs := Vk). rewrite dval_snoc in Vs.
  set (P := 256 ^ Z.of_nat (length p)) in *.
  assert (HP : 0 < P) by (apply Z.pow_pos_nonneg; lia).
  assert (E8 : P = 2 ^ (8 * Z.of_nat (length p))) by apply pow256.
  destruct (p ++ [y]) as [|a0 k0] eqn:Epy; [destruct p; discriminate|]. rewrite <- Epy in *. clear D.
  destruct (Z.ltb_spec 127 y) as [G|G].
  - (* a zero byte is kept *)
    assert (HL : (length (p ++ [y]) < length l)%nat).
    { rewrite Len, app_length. cbn [length]. destruct m; [exfalso|lia].
      rewrite Len in U.
      replace (Z.of_nat (length p + 1 + 0) - 1) with (Z.of_nat (length p)) in U by lia. fold P in U. nia. }
    destruct (Nat.ltb_spec (length (p ++ [y])) (length l)); [|lia].
    exists (p ++ [y; 0]). split.
    + f_equal. rewrite E. destruct m; [rewrite Len, app_length in HL; cbn [length] in HL; lia|].
      cbn [repeat]. change (S (length (p ++ [y]))) with (1 + length (p ++ [y]))%nat. rewrite Nat.add_comm.
      rewrite firstn_app_2. cbn. now rewrite <- app_assoc.
    + assert (Vz : st_val (Large false (p ++ [y; 0])) = v).
      { cbn [st_val]. change [y; 0] with ([y] ++ [0]). rewrite app_assoc, dval_snoc. lia. }
      split; [|exact Vz]. cbn [canonical]. rewrite Vz.
      rewrite app_length; cbn [length].
      replace (8 * Z.of_nat (length p + 2) - 9) with (8 * Z.of_nat (length p) + 7) by lia.
      replace (8 * Z.of_nat (length p + 2) - 1) with (8 * Z.of_nat (length p) + 15) by lia.
      rewrite !Z.pow_add_r by lia. rewrite <- E8.
      split; [|split; [intros _|easy]].
      * apply digits_ok_app. split; auto. constructor; [lia|]. constructor; [lia|constructor].
      * split; auto. change (2 ^ 7) with 128. change (2 ^ 15) with 32768. nia.
  - exists (p ++ [y]). split; auto.
    assert (Vz : st_val (Large false (p ++ [y])) = v) by (cbn [st_val]; lia).
    split; [|exact Vz]. cbn [canonical]. rewrite Vz.
    rewrite app_length; cbn [length].
    replace (8 * Z.of_nat (length p + 1) - 1) with (8 * Z.of_nat (length p) + 7) by lia.
    split; [auto|split; [intros _|easy]]. split; auto.
    assert (2 ^ (8 * Z.of_nat (length p + 1) - 9) <= P).
    { rewrite E8. destruct (Nat.eq_dec (length p) 0) as [E0|].
      - rewrite E0. cbn. lia.
      - apply Z.pow_le_mono_r; lia. }
    rewrite Z.pow_add_r by lia. rewrite <- E8. change (2 ^ 7) with 128. nia.
Qed.

Lemma lxor255 x : 0 <= x < 256 -> Z.lxor x 255 = 255 - x.
Proof.
  intro H. change 255 with (Z.ones 8) at 1.
  assert (A : forallb (fun n => Z.lxor (Z.of_nat n) (Z.ones 8) =? 255 - Z.of_nat n) (seq 0 256) = true) by reflexivity.
  rewrite forallb_forall in A. specialize (A (Z.to_nat x)).
  rewrite Z2Nat.id in A by lia. apply Z.eqb_eq, A. apply in_seq. lia.
Qed.

Lemma complement_ok l : digits_ok 256 l ->
  digits_ok 256 (map (fun x => Z.lxor x 255) l) /\
  dval 256 (map (fun x => Z.lxor x 255) l) = 256 ^ Z.of_nat (length l) - 1 - dval 256 l.
Proof.
  induction 1 as [|x l X O1 [IH1 IH2]]; [split; [constructor|reflexivity]|].
  cbn [map length]. rewrite !dval_cons, IH2, lxor255, pow_len_S by auto. split; [|lia].
  constructor; auto. lia.
Qed.

Lemma increment_ok l : digits_ok 256 l -> dval 256 l < 256 ^ Z.of_nat (length l) - 1 ->
  exists k, increment l = Ok k /\ digits_ok 256 k /\ length k = length l /\ dval 256 k = dval 256 l + 1.
Proof.
  induction 1 as [|x l X O1 IH]; intro U; [cbn in U; lia|].
  cbn [length] in U. rewrite pow_len_S, dval_cons in U. cbn [increment].
  destruct (Z.eqb_spec ((x + 1) mod 256) 0) as [E|NE].
  - assert (x = 255). { destruct (Z.eq_dec x 255); auto. rewrite Z.mod_small in E by lia. lia. }
    destruct IH as (k & -> & K1 & K2 & K3); [lia|]. cbn [obind].
    exists (0 :: k). repeat split; [constructor; auto; lia|cbn; auto|].
    rewrite !dval_cons, K3. lia.
  - assert (x <> 255) by (intros ->; now apply NE).
    rewrite Z.mod_small by lia. eexists. repeat split; [constructor; auto; lia|].
    rewrite !dval_cons. lia.
Qed.

Lemma dval_repeat255 n : dval 256 (repeat 255 n) = 256 ^ Z.of_nat n - 1.
Proof. induction n as [|n IH]; [reflexivity|]. cbn [repeat]. rewrite dval_cons, IH, pow_len_S. lia. Qed.

(** the bytes of a number of at least 2^62 negated: canonical but for -2^62 *)
Lemma negate_ok l v : digits_ok 256 l -> dval 256 l = v -> 2 ^ 62 <= v ->
  v <= 128 * 256 ^ (Z.of_nat (length l) - 1) ->
  exists k, negate_bytes l = Ok k /\ (length k <= length l)%nat /\
    st_val (Large true k) = - v /\ (2 ^ 62 < v -> canonical (Large true k)).
Proof.
  intros O1 V LV U. unfold negate_bytes.
  destruct (complement_ok l O1) as [C1 C2].
  destruct (increment_ok _ C1) as (w & -> & W1 & W2 & W3).
  { rewrite C2, map_length. lia. }
  cbn [obind]. rewrite map_length in W2. rewrite C2 in W3.
  assert (Vw : dval 256 w = 256 ^ Z.of_nat (length w) - v) by (rewrite W2; lia).
  rewrite <- W2 in *. clear C1 C2 W3 V O1 l W2.
  destruct (strip_spec 255 w) as (m & E & H).
  assert (Val : forall k j, w = k ++ repeat 255 j -> dval 256 k - 256 ^ Z.of_nat (length k) = - v).
  { intros k j ->. rewrite dval_app, dval_repeat255, app_length, repeat_length, Nat2Z.inj_add, Z.pow_add_r in Vw by lia. lia. }
  destruct H as [H|(p & y & H & NE)].
  { exfalso. rewrite H in E. specialize (Val [] m E). cbn in Val. lia. }
  rewrite H in *.
  assert (Len : length w = (length p + 1 + m)%nat) by (rewrite E, !app_length, repeat_length; cbn; lia).
  unfold fix_sign. rewrite last_snoc.
  assert (Ok1 : digits_ok 256 (p ++ [y])).
  { rewrite E in W1. now apply digits_ok_app in W1. }
  pose proof Ok1 as Ok2. apply digits_ok_app in Ok2. destruct Ok2 as [Op Oy].
  apply Forall_inv in Oy; rename Oy into Y.
  pose proof (dval_bound 256 p ltac:(lia) Op) as Bp.
  assert (Vk := Val _ _ E). rewrite dval_snoc, app_length in Vk. cbn [length] in Vk.
  rewrite Nat.add_1_r, pow_len_S in Vk.
  set (P := 256 ^ Z.of_nat (length p)) in *.
  assert (HP : 0 < P) by (apply Z.pow_pos_nonneg; lia).
  assert (E8 : P = 2 ^ (8 * Z.of_nat (length p))) by apply pow256.
  destruct (p ++ [y]) as [|a0 k0] eqn:Epy; [destruct p; discriminate|]. rewrite <- Epy in *.
  destruct (Z.ltb_spec y 128) as [G|G].
  - assert (HL : (length (p ++ [y]) < length w)%nat).
    { rewrite Len, app_length. cbn [length]. destruct m; [exfalso|lia].
      rewrite Len in U.
      replace (Z.of_nat (length p + 1 + 0) - 1) with (Z.of_nat (length p)) in U by lia. fold P in U. nia. }
    destruct (Nat.ltb_spec (length (p ++ [y])) (length w)); [|lia].
    assert (Em : exists j, m = S j).
    { destruct m; eauto. rewrite Len, app_length in HL. cbn [length] in HL. lia. }
    destruct Em as [j ->].
    assert (E' : w = (p ++ [y; 255]) ++ repeat 255 j).
    { rewrite E. cbn [repeat]. change [y; 255] with ([y] ++ [255]). now rewrite !app_assoc, <- (app_assoc _ [255]). }
    assert (Vk' := Val _ _ E').
    exists (p ++ [y; 255]). split; [|split; [|split]].
    + f_equal. rewrite E.
      cbn [repeat]. change (S (length (p ++ [y]))) with (1 + length (p ++ [y]))%nat. rewrite Nat.add_comm.
      rewrite firstn_app_2. cbn. now rewrite <- app_assoc.
    + rewrite E', (app_length (p ++ [y; 255])). lia.
    + exact Vk'.
    + intro LV'.  cbn [canonical st_val]. rewrite Vk'.
      rewrite app_length; cbn [length].
      replace (8 * Z.of_nat (length p + 2) - 9) with (8 * Z.of_nat (length p) + 7) by lia.
      replace (8 * Z.of_nat (length p + 2) - 1) with (8 * Z.of_nat (length p) + 15) by lia.
      rewrite !Z.pow_add_r by lia. rewrite <- E8.
      split; [|split; [easy|intros _]].
      * apply digits_ok_app. split; auto. constructor; [lia|]. constructor; [lia|constructor].
      * split; [lia|]. change (2 ^ 7) with 128. change (2 ^ 15) with 32768. nia.
  - exists (p ++ [y]). split; [auto|split; [rewrite E, (app_length (p ++ [y])); lia|]].
    assert (Vz : st_val (Large true (p ++ [y])) = - v).
    { cbn [st_val]. rewrite dval_snoc, app_length. cbn [length]. rewrite Nat.add_1_r, pow_len_S. fold P. lia. }
    split; [exact Vz|]. intro LV'. cbn [canonical]. rewrite Vz.
    rewrite app_length; cbn [length].
    replace (8 * Z.of_nat (length p + 1) - 1) with (8 * Z.of_nat (length p) + 7) by lia.
    split; [auto|split; [easy|intros _]]. split; [lia|].
    assert (2 ^ (8 * Z.of_nat (length p + 1) - 9) < P).
    { rewrite E8. destruct (Nat.eq_dec (length p) 0) as [E0|].
      - rewrite E0. cbn. lia.
      - apply Z.pow_lt_mono_r; lia. }
    rewrite Z.pow_add_r by lia. rewrite <- E8. change (2 ^ 7) with 128. nia.
Qed.

(** ** whole literals *)

Lemma not_base_digit c b : no_digit b c -> is_base_digit c b = false.
Proof.
  intros [H1 H2]. unfold is_base_digit.
  destruct ((c <? 48) || ((57 <? c) && (c <? 65)) || (90 <? c)) eqn:E; [reflexivity|].
  destruct (Z.leb_spec 65 c); lia.
Qed.

Lemma after_any b rest : after_literal rest -> after_radix b rest.
Proof.
  destruct rest as [|c t]; [auto|]. intros (H1 & H2 & H3 & H4 & H5). split; [|split].
  - unfold no_digit. lia.
  - cbn [In]. lia.
  - intros E. specialize (H5 E). destruct t as [|d t]; [auto|]. unfold no_digit. lia.
Qed.

Lemma after_stop b rest : after_radix b rest -> stop_char b rest.
Proof.
  intros H. destruct rest as [|c t]; [exact I|]. destruct H as (H1 & H2 & _).
  split; [|now apply not_base_digit]. intros ->. apply H2. cbn. auto.
Qed.

Lemma wrap64_small x : - 2 ^ 63 <= x < 2 ^ 63 -> wrap64 x = x.
Proof.
  intro H. unfold wrap64. replace (x + 2 ^ 63) with (x + 2 ^ 63) by lia.
  rewrite Z.mod_small by lia. lia.
Qed.

Definition num_done (neg : bool) (V : Z) (t : numtok) : Prop :=
  if neg then
    (V <= 3 * 2 ^ 62 /\ t = TInt (wrap64 (- V))) \/
    (3 * 2 ^ 62 < V /\ exists l, t = TLarge (Large true l) /\ is_int_obj (Large true l) (- V))
  else
    (V < 2 ^ 62 /\ t = TInt V) \/
    (2 ^ 62 <= V /\ exists l, t = TLarge (Large false l) /\ is_int_obj (Large false l) V).

Lemma finish_ok neg b ds w r rest : 2 <= b <= 36 -> digit_text b ds w -> ds <> [] ->
  after_radix b rest ->
  sc_int r = pos_value b ds mod 2 ^ 64 -> sc_large r = (big_bound neg <? pos_value b ds) ->
  sc_digits r = ds ->
  exists t, finish_number neg b r rest = Ok (t, rest) /\ num_done neg (pos_value b ds) t.
Proof.
  intros B DT NE AL E1 E2 E3.
  assert (F := digit_text_ok _ _ _ DT).
  assert (HV := pos_value_bound b ds ltac:(lia) F).
  set (V := pos_value b ds) in *.
  assert (Fin : exists t,
    (if sc_large r then olet o := scan_large_integer neg b (sc_digits r) in Ok (TLarge o, rest)
     else Ok (TInt (wrap64 (if neg then - sc_int r else sc_int r)), rest)) = Ok (t, rest) /\ num_done neg V t).
  { rewrite E2, E3. unfold scan_large_integer.
    destruct (mul_fold_exact b ds B F NE) as (L1 & L2 & L3 & L4). fold V in L3, L4.
    set (l := fold_left _ _ _) in *.
    destruct (Z.ltb_spec (big_bound neg) V) as [G|G]; unfold big_bound in G; unfold num_done; destruct neg.
    - destruct (negate_ok l V) as (k & -> & _ & K1 & K2); auto; try lia. { rewrite L1. lia. }
      cbn [obind]. eexists. split; [reflexivity|]. right. split; [lia|]. exists k. split; auto.
      split; [apply K2; lia|auto].
    - destruct (fix_pos l V) as (k & -> & K1); auto; try lia. { rewrite L1. lia. }
      cbn [obind]. eexists. split; [reflexivity|]. right. split; [lia|]. exists k. auto.
    - eexists. split; [reflexivity|]. left. split; [lia|]. rewrite E1, Z.mod_small by lia. reflexivity.
    - eexists. split; [reflexivity|]. left. split; [lia|]. rewrite E1, Z.mod_small by lia.
      rewrite wrap64_small by lia. reflexivity. }
  unfold finish_number. destruct rest as [|c t]; [exact Fin|].
  destruct AL as (H1 & H2 & H5). cbn [In] in H2.
  replace ((c =? 46) && match t with d :: _ => is_base_digit d b | [] => false end) with false.
  2:{ destruct (Z.eqb_spec c 46) as [->|]; auto. specialize (H5 eq_refl).
      destruct t as [|d t]; auto. symmetry. now apply not_base_digit. }
  replace ((c =? 115) || (c =? 101) || (c =? 100) || (c =? 113)) with false by lia.
  exact Fin.
Qed.

Lemma decimal_scan v w rest : decimal_text v w -> after_literal rest ->
  exists t, scan_number (w ++ rest) = Ok (t, rest) /\ num_done false v t.
Proof.
  intros [(ds & NE & DT & ->) _] AL. unfold scan_number.
  destruct (scan_digits_ok false 10 ds w rest ltac:(lia) DT NE) as (r & -> & R1 & R2 & R3).
  { apply after_stop, after_any, AL. }
  cbn [obind].
  destruct (finish_ok false 10 ds w r rest ltac:(lia) DT NE (after_any 10 rest AL) R1 R2 R3) as (t & E & N).
  exists t. split; auto. destruct rest as [|c u]; auto.
  destruct AL as (H1 & H2 & H3 & H4 & H5).
  destruct (Z.eqb_spec c 114); [lia|auto].
Qed.

Lemma digit_text_head b ds w : 2 <= b <= 36 -> ds <> [] -> digit_text b ds w ->
  exists c t, w = c :: t /\ c <> 45.
Proof.
  intros B NE DT. destruct DT as [|ds w DT|d ds w D DT]; [easy|eexists _, _; split; [reflexivity|lia]|].
  eexists _, _; split; [reflexivity|]. unfold ascii_digit. destruct (d <? 10) eqn:E; lia.
Qed.

Lemma radix_scan (neg : bool) b v bw w rest : 2 <= b <= 36 -> decimal_text b bw -> numeral_text b v w ->
  after_radix b rest ->
  exists t, scan_number (bw ++ 114 :: (if neg then [45] else []) ++ w ++ rest) = Ok (t, rest) /\
    num_done neg v t.
Proof.
  intros B [(dsb & NEb & DTb & EV) _] (ds & NE & DT & ->) AL. unfold scan_number.
  destruct (scan_digits_ok false 10 dsb bw (114 :: (if neg then [45] else []) ++ w ++ rest) ltac:(lia) DTb NEb)
    as (r & -> & R1 & R2 & R3).
  { cbn. split; [lia|reflexivity]. }
  cbn [obind]. rewrite Z.eqb_refl, R1, R2, <- EV. rewrite Z.mod_small by lia.
  replace ((36 <? b) || (big_bound false <? b)) with false by (unfold big_bound; lia).
  assert (Hd : match (if neg then [45] else []) ++ w ++ rest with
       | d :: u => if d =? 45 then (true, u) else (false, (if neg then [45] else []) ++ w ++ rest)
       | [] => (false, (if neg then [45] else []) ++ w ++ rest)
       end = (neg, w ++ rest)).
  { destruct neg; cbn [app]; [reflexivity|].
    destruct (digit_text_head b ds w B NE DT) as (c & t & -> & N). cbn [app].
    destruct (Z.eqb_spec c 45); [easy|reflexivity]. }
  rewrite Hd. clear Hd.
  destruct (scan_digits_ok neg b ds w rest B DT NE) as (r' & -> & Q1 & Q2 & Q3).
  { apply after_stop, AL. }
  cbn [obind]. eapply finish_ok; eauto.
Qed.

Lemma decimal_head v w : decimal_text v w -> exists c t, w = c :: t /\ is_dec c = true /\ c <> 45.
Proof.
  intros [(ds & NE & DT & _) H]. destruct DT as [|ds w DT|d ds w D DT]; [easy|easy|].
  eexists _, _; split; [reflexivity|]. unfold is_dec, ascii_digit. destruct (Z.ltb_spec d 10); lia.
Qed.

Lemma tag_roundtrip z : - 2 ^ 62 <= z < 2 ^ 62 -> to_int (from_int z) = z.
Proof. intro H. apply to_int_from_int. exact H. Qed.

Lemma tag_range z : - 2 ^ 62 <= to_int (from_int z) < 2 ^ 62.
Proof.
  unfold to_int, from_int. rewrite Z.shiftr_div_pow2 by lia.
  pose proof (wrap64_range (wrap64 (Z.shiftl z 1) + 1)) as R.
  change (2 ^ 1) with 2. split; [apply Z.div_le_lower_bound|apply Z.div_lt_upper_bound]; lia.
Qed.

(** the literal that a number token and its sign make *)
Definition sgn_lit (sg : bool) (v : Z) : Z := if sg then - v else v.

Lemma small_obj z : - 2 ^ 62 <= z < 2 ^ 62 -> is_int_obj (Small (to_int (from_int z))) z.
Proof. intro H. rewrite tag_roundtrip by auto. split; [exact H|reflexivity]. Qed.

Lemma with_sign (sg : bool) v w rest t : 0 <= v ->
  (exists c u, w = c :: u /\ is_dec c = true /\ c <> 45) ->
  scan_number (w ++ rest) = Ok (t, rest) -> num_done false v t ->
  exists o, int_literal ((if sg then [45] else []) ++ w ++ rest) = Ok (Some o, rest) /\
    st_val o = sgn_lit sg v /\ (sgn_lit sg v <> - 2 ^ 62 -> canonical o).
Proof.
  intros HV (c & u & -> & Dc & Nc) Sc ND. unfold int_literal.
  assert (Pl : int_literal ((c :: u) ++ rest) = olet (k, s) := scan_number ((c :: u) ++ rest) in Ok (token_object k, s)).
  { unfold int_literal. cbn [app]. destruct (Z.eqb_spec c 45); [easy|]. now rewrite Dc. }
  unfold int_literal in Pl.
  destruct sg; cbn [app sgn_lit] in *.
  - change (45 =? 45) with true. cbv iota. rewrite Dc, Sc. cbn [obind].
    destruct ND as [[L ->]|[L (l & -> & [CL EL])]].
    + cbn [negate_token]. destruct (Z.ltb_spec v 0); [lia|]. rewrite wrap64_small by lia.
      cbn [obind token_object]. eexists. split; [reflexivity|].
      destruct (small_obj (- v)) as [S1 S2]; [lia|]. auto.
    + cbn [negate_token].
      assert (DB : digits_ok 256 l) by apply CL.
      assert (LV : v < 128 * 256 ^ (Z.of_nat (length l) - 1) /\ l <> []).
      { pose proof (large_length_ge8 _ _ CL) as G. split.
        - destruct CL as (_ & CP & _). destruct (CP eq_refl) as [_ [_ U]]. rewrite EL in U.
          replace (8 * Z.of_nat (length l) - 1) with (7 + 8 * (Z.of_nat (length l) - 1)) in U by lia.
          rewrite Z.pow_add_r, Z.pow_mul_r in U by lia. exact U.
        - intros ->. cbn in G. lia. }
      destruct LV as [LV NE].
      assert (EV : dval 256 l = v) by (rewrite <- EL; cbn; lia).
      assert (Lst : (128 <=? last l 0) = false).
      { apply Z.leb_gt. destruct (exists_last NE) as (p & y & ->). rewrite last_snoc.
        rewrite dval_snoc in EV. rewrite app_length in LV. cbn [length] in LV.
        replace (Z.of_nat (length p + 1) - 1) with (Z.of_nat (length p)) in LV by lia.
        apply digits_ok_app in DB. destruct DB as [Dp _].
        pose proof (dval_bound 256 p ltac:(lia) Dp). nia. }
      rewrite Lst.
      destruct (negate_ok l v DB EV L ltac:(lia)) as (k & -> & K1 & K2 & K3). cbn [obind].
      destruct (Nat.leb_spec (length k) (length l)); [|lia]. cbn [obind token_object].
      eexists. split; [reflexivity|]. split; [exact K2|]. intro N. apply K3. lia.
  - destruct (Z.eqb_spec c 45); [easy|]. rewrite Dc, Sc. cbn [obind].
    destruct ND as [[L ->]|[L (l & -> & [CL EL])]]; cbn [token_object].
    + eexists. split; [reflexivity|]. destruct (small_obj v) as [S1 S2]; [lia|]. auto.
    + eexists. split; [reflexivity|]. auto.
Qed.

Lemma numeral_text_nonneg b v w : 2 <= b -> numeral_text b v w -> 0 <= v.
Proof.
  intros B (ds & NE & DT & ->). apply pos_value_bound; auto. eapply digit_text_ok; eauto.
Qed.

Lemma decimal_literal (sg : bool) v w rest : decimal_text v w -> after_literal rest ->
  exists o, int_literal ((if sg then [45] else []) ++ w ++ rest) = Ok (Some o, rest) /\
    st_val o = sgn_lit sg v /\ (sgn_lit sg v <> - 2 ^ 62 -> canonical o).
Proof.
  intros DT AL. destruct (decimal_scan v w rest DT AL) as (t & Sc & ND).
  eapply with_sign; eauto.
  - eapply (numeral_text_nonneg 10); [lia|apply DT].
  - eapply decimal_head; eauto.
Qed.

Lemma radix_head b bw (w : list Z) : decimal_text b bw ->
  exists c u, bw ++ 114 :: w = c :: u /\ is_dec c = true /\ c <> 45.
Proof.
  intro H. destruct (decimal_head b bw H) as (c & t & -> & D & N).
  exists c. eexists. split; [reflexivity|auto].
Qed.

Lemma radix_literal (sg : bool) b v bw w rest : 2 <= b <= 36 ->
  decimal_text b bw -> numeral_text b v w -> after_radix b rest ->
  exists o, int_literal ((if sg then [45] else []) ++ bw ++ 114 :: w ++ rest) = Ok (Some o, rest) /\
    st_val o = sgn_lit sg v /\ (sgn_lit sg v <> - 2 ^ 62 -> canonical o).
Proof.
  intros B DB DT AL. destruct (radix_scan false b v bw w rest B DB DT AL) as (t & Sc & ND).
  replace (bw ++ 114 :: w ++ rest) with ((bw ++ 114 :: w) ++ rest) by now rewrite <- app_assoc.
  eapply with_sign; eauto.
  - eapply (numeral_text_nonneg b); [lia|apply DT].
  - eapply radix_head; eauto.
  - rewrite <- app_assoc. exact Sc.
Qed.

(** the minus sign after the radix *)
Lemma radix_neg_literal b v bw w rest : 2 <= b <= 36 ->
  decimal_text b bw -> numeral_text b v w -> after_radix b rest ->
  exists o, int_literal (bw ++ 114 :: 45 :: w ++ rest) = Ok (Some o, rest) /\
    (if (2 ^ 62 <? v) && (v <=? 3 * 2 ^ 62) then st_val o <> - v else is_int_obj o (- v)).
Proof.
  intros B DB DT AL. destruct (radix_scan true b v bw w rest B DB DT AL) as (t & Sc & ND).
  cbn [app] in Sc.
  assert (HV : 0 <= v) by (eapply (numeral_text_nonneg b); [lia|apply DT]).
  destruct (radix_head b bw (45 :: w ++ rest) DB) as (c & u & E & Dc & Nc).
  rewrite E in *. unfold int_literal. destruct (Z.eqb_spec c 45); [easy|]. rewrite Dc, Sc. cbn [obind].
  destruct ND as [[L ->]|[L (l & -> & CL)]]; cbn [token_object].
  - eexists. split; [reflexivity|]. destruct (Z.ltb_spec (2 ^ 62) v); destruct (Z.leb_spec v (3 * 2 ^ 62)); try lia; cbn [andb].
    + cbn [st_val]. pose proof (tag_range (wrap64 (- v))). lia.
    + rewrite wrap64_small by lia. apply small_obj. lia.
  - eexists. split; [reflexivity|]. destruct (Z.leb_spec v (3 * 2 ^ 62)); [lia|]. rewrite andb_false_r. exact CL.
Qed.
