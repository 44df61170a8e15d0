(** Proofs about the buffer that MD5 and SHA-1 share. *)
From Verif Require Import Base Digest DigestSpec.
Local Open Scope Z_scope.

(** Words. *)
Lemma lor_add a b k : 0 <= k -> 0 <= b < 2 ^ k -> Z.lor (a * 2 ^ k) b = a * 2 ^ k + b.
Proof.
  intros K B. assert (L : Z.land (a * 2 ^ k) b = 0).
  { apply Z.bits_inj'. intros n N. rewrite Z.land_spec, Z.bits_0.
    destruct (Z.lt_ge_cases n k) as [H|H].
    - rewrite Z.mul_pow2_bits_low by lia. reflexivity.
    - destruct (Z.eq_dec b 0) as [->|Z0]; [rewrite Z.bits_0, andb_false_r; reflexivity|].
      rewrite (Z.bits_above_log2 b n); [apply andb_false_r|lia|].
      assert (Z.log2 b < k) by (apply Z.log2_lt_pow2; lia). lia. }
  rewrite <- (Z.lxor_lor _ _ L). symmetry. apply Z.add_nocarry_lxor. exact L.
Qed.

Lemma cyclic_ok w s : 0 <= w < 2 ^ 32 -> 0 <= s <= 32 -> cyclic w s = rotl s w.
Proof.
  intros W S. unfold cyclic, rotl, u32. change 4294967296 with (2 ^ 32).
  rewrite Z.shiftl_mul_pow2 by lia. rewrite Z.shiftr_div_pow2 by lia.
  assert (E : (w * 2 ^ s) mod 2 ^ 32 = (w mod 2 ^ (32 - s)) * 2 ^ s).
  { replace (2 ^ 32) with (2 ^ (32 - s) * 2 ^ s) by (rewrite <- Z.pow_add_r by lia; f_equal; lia).
    apply Z.mul_mod_distr_r; apply Z.pow_nonzero; lia. }
  rewrite E. apply lor_add; [lia|]. split; [apply Z.div_pos; [lia|apply Z.pow_pos_nonneg; lia]|].
  apply Z.div_lt_upper_bound; [apply Z.pow_pos_nonneg; lia|].
  rewrite <- Z.pow_add_r by lia. replace (32 - s + s) with 32 by lia. lia.
Qed.

Lemma u32_range x : 0 <= u32 x < 2 ^ 32.
Proof. unfold u32. change (2 ^ 32) with 4294967296. apply Z.mod_pos_bound. lia. Qed.

Lemma u32_word x : u32 x = word x.
Proof. reflexivity. Qed.

Lemma store32_ok w : store32 w = low_first 4 w.
Proof. cbn [low_first]. unfold store32. rewrite !Z.div_div by lia. reflexivity. Qed.

Lemma low_first_mod n : forall x, low_first n (x mod 256 ^ Z.of_nat n) = low_first n x.
Proof.
  induction n as [|n IH]; intros x; [reflexivity|]. cbn [low_first].
  rewrite Nat2Z.inj_succ, Z.pow_succ_r by lia. assert (P : 0 < 256 ^ Z.of_nat n) by (apply Z.pow_pos_nonneg; lia).
  rewrite Z.rem_mul_r by lia. f_equal.
  - rewrite Z.mul_comm, Z.mod_add by lia. apply Z.mod_mod. lia.
  - rewrite <- (IH (x / 256)). f_equal. rewrite Z.mul_comm, Z.div_add by lia.
    rewrite (Z.div_small (x mod 256)); [lia|]. apply Z.mod_pos_bound. lia.
Qed.

Lemma low_first_app a b x : low_first (a + b) x = low_first a x ++ low_first b (x / 256 ^ Z.of_nat a).
Proof.
  revert x. induction a as [|a IH]; intros x; cbn [low_first Nat.add app].
  - cbn [Z.of_nat Z.pow]. rewrite Z.div_1_r. reflexivity.
  - rewrite IH. rewrite Nat2Z.inj_succ, Z.pow_succ_r by lia. rewrite Z.div_div; [reflexivity|lia|apply Z.pow_pos_nonneg; lia].
Qed.

Lemma low_first_length n : forall x, length (low_first n x) = n.
Proof. induction n; intros; cbn [low_first length]; auto. Qed.

Lemma low8 x : low_first 8 x = low_first 4 (x mod 2 ^ 32) ++ low_first 4 (x / 2 ^ 32).
Proof.
  change 8%nat with (4 + 4)%nat. rewrite low_first_app. change (256 ^ Z.of_nat 4) with (2 ^ 32).
  rewrite <- (low_first_mod 4 x). reflexivity.
Qed.

(** The number of bits. *)
Definition total (c : ctx) : Z := t0 c + 4294967296 * t1 c.
Definition counted (c : ctx) (n : Z) : Prop := 0 <= t0 c < 4294967296 /\ 0 <= t1 c < 4294967296 /\ total c = n mod 2 ^ 64.

Lemma count_ok c n len : counted c n -> 0 <= len < 4294967296 -> counted (count len c) (n + len).
Proof.
  unfold counted, total, count, u32. cbn [t0 t1]. change (2 ^ 64) with (4294967296 * 4294967296). intros (A & B & T) L.
  split; [apply Z.mod_pos_bound; lia|]. destruct c as [r x y bl b]. cbn [t0 t1] in *. clear r bl b.
  assert (C : x + len < 4294967296 \/ 4294967296 <= x + len) by lia. destruct C as [C|C].
  - rewrite (Z.mod_small (x + len)) by lia. replace (x + len <? len) with false by lia.
    split; [lia|]. lia.
  - replace ((x + len) mod 4294967296) with (x + len - 4294967296) by lia.
    replace (x + len - 4294967296 <? len) with true by lia.
    split; [apply Z.mod_pos_bound; lia|]. lia.
Qed.

Lemma bits_low c n : counted c n -> u32 (Z.shiftl (t0 c) 3) = (8 * n mod 2 ^ 64) mod 2 ^ 32.
Proof.
  intros (A & B & T). unfold total in T. rewrite Z.shiftl_mul_pow2 by lia. unfold u32.
  change (2 ^ 3) with 8. change (2 ^ 64) with 18446744073709551616 in *. change (2 ^ 32) with 4294967296. lia.
Qed.

Lemma bits_high c n : counted c n ->
  Z.lor (u32 (Z.shiftl (t1 c) 3)) (Z.shiftr (t0 c) 29) = (8 * n mod 2 ^ 64) / 2 ^ 32.
Proof.
  intros (A & B & T). unfold total in T. rewrite Z.shiftl_mul_pow2, Z.shiftr_div_pow2 by lia. unfold u32.
  change (2 ^ 29) with 536870912.
  assert (E : (t1 c * 2 ^ 3) mod 4294967296 = (t1 c mod 536870912) * 2 ^ 3) by (change (2 ^ 3) with 8; lia).
  rewrite E, lor_add; [|lia|change (2 ^ 3) with 8; lia].
  change (2 ^ 3) with 8. change (2 ^ 64) with 18446744073709551616 in *. change (2 ^ 32) with 4294967296.
  lia.
Qed.

(** Lists. *)
Lemma blit_ok b i s : length b = 128%nat -> (i + length s <= 128)%nat ->
  exists b', blit b i s = Ok b' /\ length b' = 128%nat /\ firstn (i + length s) b' = firstn i b ++ s.
Proof.
  intros L H. unfold blit. destruct (Nat.leb_spec (i + length s) 128); [|lia].
  eexists. split; [reflexivity|]. rewrite !app_length, firstn_length, skipn_length. split; [lia|].
  rewrite app_assoc, firstn_app. rewrite firstn_all2 by (rewrite app_length, firstn_length; lia).
  replace (i + length s - length (firstn i b ++ s))%nat with 0%nat by (rewrite app_length, firstn_length; lia).
  rewrite firstn_O, app_nil_r. reflexivity.
Qed.

Lemma sub_first b i n k : (i + n <= k)%nat -> sub b i n = firstn n (skipn i (firstn k b)).
Proof.
  intros H. unfold sub. rewrite <- (firstn_skipn k b) at 1. rewrite skipn_app, firstn_app.
  assert (L : (length (firstn k b) <= k)%nat) by (rewrite firstn_length; lia).
  destruct (Nat.le_gt_cases k (length b)) as [K|K].
  - assert (E : length (firstn k b) = k) by (rewrite firstn_length; lia). rewrite skipn_length, E.
    replace (n - (k - i))%nat with 0%nat by lia. rewrite firstn_O, app_nil_r. reflexivity.
  - rewrite (skipn_all2 b) by lia. rewrite skipn_nil, firstn_nil, app_nil_r. reflexivity.
Qed.

Lemma firstn_prefix {X} (b : list X) i k l : firstn k b = l -> (i <= k)%nat -> firstn i b = firstn i l.
Proof. intros <- H. rewrite firstn_firstn. f_equal. lia. Qed.

(** Blocks. *)
Section Body.
Context (f : list Z -> bytes -> list Z).

Lemma each_block_app k : forall r a b j, length a = (k * 64)%nat ->
  each_block f (k + j) r (a ++ b) = each_block f j (each_block f k r a) b.
Proof.
  induction k as [|k IH]; intros r a b j L.
  - destruct a; [reflexivity|discriminate].
  - cbn [each_block Nat.add]. rewrite firstn_app, skipn_app.
    replace (64 - length a)%nat with 0%nat by lia. rewrite firstn_O, skipn_O, app_nil_r.
    apply IH. rewrite skipn_length. lia.
Qed.

Lemma each_block_fold k : forall r a, length a = (k * 64)%nat ->
  exists bs, in_blocks a bs /\ each_block f k r a = fold_left f bs r.
Proof.
  induction k as [|k IH]; intros r a L.
  - destruct a; [|discriminate]. exists []. split; [constructor|reflexivity].
  - destruct (IH (f r (firstn 64 a)) (skipn 64 a)) as (bs & I & E); [rewrite skipn_length; lia|].
    exists (firstn 64 a :: bs). split; [|exact E].
    rewrite <- (firstn_skipn 64 a) at 1. constructor; [rewrite firstn_length; lia|exact I].
Qed.

(** The context has processed the message [m], whole blocks. *)
Definition core (start : list Z) (m : bytes) (c : ctx) : Prop :=
  exists k, length m = (k * 64)%nat /\ regs c = each_block f k start m /\ counted c (Z.of_nat (length m)).

Lemma core_block start m c d j : core start m c -> length d = (j * 64)%nat -> Z.of_nat (length d) < 4294967296 ->
  core start (m ++ d) (process_block f d c).
Proof.
  intros (k & L & R & T) J B. exists (k + j)%nat. rewrite app_length. split; [lia|]. unfold process_block. cbn [regs t0 t1].
  split.
  - unfold count at 1. cbn [regs]. rewrite R. rewrite (each_block_app k) by exact L. f_equal. rewrite J. apply Nat.div_mul. lia.
  - pose proof (count_ok c (Z.of_nat (length m)) (Z.of_nat (length d)) T ltac:(lia)) as H.
    rewrite Nat2Z.inj_add. exact H.
Qed.

Lemma core_buf start m c n b : core start m c -> core start m (with_buf c n b).
Proof. intros (k & H). exists k. exact H. Qed.

(** The context has taken the message [m]. *)
Definition rep (start : list Z) (m : bytes) (c : ctx) : Prop :=
  exists m0 rest, m = m0 ++ rest /\ core start m0 c /\ length rest = buflen c /\ (buflen c <= 64)%nat /\
    length (buf c) = 128%nat /\ firstn (buflen c) (buf c) = rest.

Lemma whole_le n : (whole n <= n)%nat /\ (n - whole n = n mod 64)%nat /\ exists j, whole n = (j * 64)%nat.
Proof. unfold whole. split; [|split; [|eauto]]; lia. Qed.

Lemma top_up_ok start m c data : rep start m c -> Z.of_nat (length data) < 4294967296 ->
  exists d1 d2 c', top_up f data c = Ok (d2, c') /\ data = d1 ++ d2 /\ rep start (m ++ d1) c' /\ (d2 <> [] -> buflen c' = 0%nat).
Proof.
  intros (m0 & rest & M & Co & Lr & Lb & L & F) LD. unfold top_up.
  destruct (Nat.eqb_spec (buflen c) 0) as [Z0|NZ].
  { exists [], data, c. split; [reflexivity|]. split; [reflexivity|]. split; [|auto]. rewrite app_nil_r. exists m0, rest. auto 10. }
  set (add := if (length data <? 128 - buflen c)%nat then length data else (128 - buflen c)%nat).
  assert (AD : (add <= length data)%nat /\ (buflen c + add <= 128)%nat /\ (add = length data \/ (buflen c + add = 128)%nat)).
  { unfold add. destruct (Nat.ltb_spec (length data) (128 - buflen c)); lia. }
  clearbody add. destruct AD as (AD1 & AD2 & AD3).
  assert (LF : length (firstn add data) = add) by (rewrite firstn_length; lia).
  destruct (blit_ok (buf c) (buflen c) (firstn add data) L) as (b & B1 & B2 & B3); [lia|]. rewrite B1. cbn [obind].
  rewrite LF, F in B3.
  assert (LM : length (rest ++ firstn add data) = (buflen c + add)%nat) by (rewrite app_length; lia).
  destruct (Nat.ltb_spec 64 (buflen c + add)) as [Hn|Hn].
  - destruct (whole_le (buflen c + add)) as (W1 & W2 & j & W3).
    remember (buflen c + add)%nat as n eqn:En. remember (whole n) as w eqn:Ew.
    assert (Sb : sub b w (n mod 64) = skipn w (rest ++ firstn add data)).
    { rewrite (sub_first b w (n mod 64) n) by lia. rewrite B3. rewrite firstn_all2; [reflexivity|]. rewrite skipn_length. lia. }
    destruct (blit_ok b 0 (sub b w (n mod 64)) B2) as (b2 & C1 & C2 & C3).
    { rewrite Sb, skipn_length. lia. }
    rewrite C1. cbn [obind]. exists (firstn add data), (skipn add data). eexists. split; [reflexivity|].
    split; [symmetry; apply firstn_skipn|]. split.
    + exists (m0 ++ firstn w (rest ++ firstn add data)), (skipn w (rest ++ firstn add data)).
      split; [rewrite M, <- !app_assoc, firstn_skipn; reflexivity|].
      split.
      { apply core_buf. rewrite <- B3. rewrite firstn_firstn, Nat.min_l by lia. apply core_block with (j := j).
        - apply core_buf. exact Co.
        - rewrite firstn_length. lia.
        - rewrite firstn_length. lia. }
      unfold with_buf. cbn [buflen buf]. split; [rewrite skipn_length; lia|]. split; [lia|]. split; [exact C2|].
      rewrite Sb, skipn_length, LM in C3. replace (0 + (n - w))%nat with (n mod 64)%nat in C3 by lia. exact C3.
    + intros NE. unfold with_buf. cbn [buflen]. destruct AD3 as [->|AD3].
      * exfalso. apply NE. apply skipn_all.
      * rewrite AD3. reflexivity.
  - exists (firstn add data), (skipn add data). eexists. split; [reflexivity|]. split; [symmetry; apply firstn_skipn|]. split.
    + exists m0, (rest ++ firstn add data). split; [rewrite M, app_assoc; reflexivity|]. split; [apply core_buf; exact Co|].
      unfold with_buf. cbn [buflen buf]. split; [exact LM|]. split; [exact Hn|]. split; [exact B2|exact B3].
    + intros NE. exfalso. apply NE. destruct AD3 as [->|AD3]; [apply skipn_all|lia].
Qed.

Lemma rep_empty start m c : rep start m c -> buflen c = 0%nat -> core start m c /\ length (buf c) = 128%nat.
Proof.
  intros (m0 & rest & M & Co & Lr & Lb & L & F) Z0. rewrite Z0 in F. cbn [firstn] in F. subst rest. rewrite app_nil_r in M. subst. auto.
Qed.

Lemma rep_init start junk : length junk = 128%nat -> rep start [] (mkC start 0 0 0 junk).
Proof.
  intros L. exists [], []. split; [reflexivity|]. split; [exists 0%nat; split; [reflexivity|]; split; [reflexivity|]; split; [cbn; lia|]; split; [cbn; lia|reflexivity]|].
  cbn [buflen buf]. split; [reflexivity|]. split; [lia|]. split; [exact L|reflexivity].
Qed.

Lemma fill_ok n : (0 < n <= 64)%nat -> fill n = Ok (128 :: repeat 0 (n - 1)).
Proof.
  intros H. unfold fill. destruct (Nat.leb_spec n 64); [|lia]. f_equal. destruct n as [|n]; [lia|]. unfold fillbuf. cbn [firstn].
  f_equal. replace 63%nat with (n + (63 - n))%nat at 1 by lia. rewrite repeat_app, firstn_app, repeat_length.
  rewrite firstn_all2 by (rewrite repeat_length; lia). replace (n - n)%nat with 0%nat by lia. rewrite firstn_O, app_nil_r. f_equal. lia.
Qed.
End Body.

(** Bytes. *)
Definition byte (x : Z) : Prop := 0 <= x < 256.
Lemma load32_ok b i : (4 * i + 4 <= length b)%nat -> load32 b i = word_of b (Z.of_nat i).
Proof.
  intros H. unfold load32, word_of. replace (Z.to_nat (4 * Z.of_nat i)) with (4 * i)%nat by lia.
  assert (E : forall j, nth (4 * i + j) b 0 = nth j (skipn (4 * i) b) 0).
  { intros j. revert b H. generalize (4 * i)%nat. intros k. induction k as [|k IH]; intros b H; [reflexivity|].
    destruct b as [|x b]; [cbn in H; lia|]. cbn [skipn Nat.add nth]. apply IH. cbn in H. lia. }
  rewrite <- (Nat.add_0_r (4 * i)) at 1. rewrite !E.
  assert (L : (4 <= length (skipn (4 * i) b))%nat) by (rewrite skipn_length; lia).
  destruct (skipn (4 * i) b) as [|x0 [|x1 [|x2 [|x3 t]]]]; cbn in L; try lia. cbn [firstn nth number]. lia.
Qed.

Lemma word_of_range b k : Forall byte b -> 0 <= word_of b k < 2 ^ 32.
Proof.
  intros F. unfold word_of. assert (G : Forall byte (skipn (Z.to_nat (4 * k)) b)).
  { revert b F. generalize (Z.to_nat (4 * k)). intros n. induction n as [|n IH]; intros b F; [exact F|]. destruct F; [constructor|]. cbn [skipn]. auto. }
  remember (skipn (Z.to_nat (4 * k)) b) as l eqn:E. clear E. change (2 ^ 32) with 4294967296. unfold byte in G.
  destruct G as [|x0 l H0 G]; [cbn; lia|]. destruct G as [|x1 l H1 G]; [cbn [firstn number]; lia|].
  destruct G as [|x2 l H2 G]; [cbn [firstn number]; lia|]. destruct G as [|x3 l H3 G]; cbn [firstn number]; lia.
Qed.

Lemma digit_ok v : 0 <= v < 16 -> hex_value (lowercase (digit_char v)) = Some v.
Proof.
  intros H. unfold hex_value, lowercase, digit_char. destruct (Z.ltb_spec v 10).
  - replace ((65 <=? 48 + v) && (48 + v <=? 90)) with false by lia.
    replace ((48 <=? 48 + v) && (48 + v <=? 57)) with true by lia. f_equal. lia.
  - replace ((65 <=? 55 + v) && (55 + v <=? 90)) with true by lia.
    replace ((48 <=? 55 + v + 32) && (55 + v + 32 <=? 57)) with false by lia.
    replace ((97 <=? 55 + v + 32) && (55 + v + 32 <=? 102)) with true by lia. f_equal. lia.
Qed.
Lemma hex_ok l : Forall byte l -> reads_as (hex_digest l) l.
Proof.
  unfold hex_digest. induction 1 as [|b l B F IH]; [constructor|]. cbn [flat_map app map]. unfold byte in B.
  replace b with (16 * (b / 16) + b mod 16) at 3 by lia.
  constructor; [apply digit_ok; lia|apply digit_ok; lia|exact IH].
Qed.

Lemma low_first_bytes n : forall x, Forall byte (low_first n x).
Proof. induction n; intros; constructor; auto. unfold byte. lia. Qed.
Lemma out_bytes n l : Forall byte (flat_map (low_first n) l).
Proof. induction l; cbn [flat_map]; [constructor|]. apply Forall_app. split; [apply low_first_bytes|assumption]. Qed.
