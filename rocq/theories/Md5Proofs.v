(** Proofs about MD5. *)
From Verif Require Import Base Digest Md5 DigestSpec DigestProofs.
Local Open Scope Z_scope.

(** The four functions. *)
Ltac bitwise := apply Z.bits_inj'; intros n N;
  rewrite ?Z.lor_spec, ?Z.lxor_spec, ?Z.land_spec, ?Z.lnot_spec by lia;
  repeat rewrite ?Z.lor_spec, ?Z.lxor_spec, ?Z.land_spec, ?Z.lnot_spec by lia;
  repeat match goal with |- context [Z.testbit ?x n] => destruct (Z.testbit x n) end; reflexivity.

Lemma FF_ok i b c d : (i < 16)%nat -> FF b c d = md5_fun (Z.of_nat i) b c d.
Proof. intros H. unfold md5_fun. replace (Z.of_nat i <? 16) with true by lia. unfold FF. bitwise. Qed.
Lemma FG_ok i b c d : (16 <= i < 32)%nat -> FG b c d = md5_fun (Z.of_nat i) b c d.
Proof.
  intros H. unfold md5_fun. replace (Z.of_nat i <? 16) with false by lia. replace (Z.of_nat i <? 32) with true by lia.
  unfold FG, FF. bitwise.
Qed.
Lemma FH_ok i b c d : (32 <= i < 48)%nat -> FH b c d = md5_fun (Z.of_nat i) b c d.
Proof.
  intros H. unfold md5_fun. replace (Z.of_nat i <? 16) with false by lia. replace (Z.of_nat i <? 32) with false by lia.
  replace (Z.of_nat i <? 48) with true by lia. unfold FH. bitwise.
Qed.
Lemma FI_ok i b c d : (48 <= i < 64)%nat -> FI b c d = md5_fun (Z.of_nat i) b c d.
Proof.
  intros H. unfold md5_fun. replace (Z.of_nat i <? 16) with false by lia. replace (Z.of_nat i <? 32) with false by lia.
  replace (Z.of_nat i <? 48) with false by lia. reflexivity.
Qed.

(** The operations that the standard asks for, with the variables in turn. *)
Definition R (i : nat) : reg := match (i mod 4)%nat with 0%nat => A | 1%nat => D | 2%nat => C | _ => B end.
Definition op_of (i : nat) : op :=
  mkO (R i) (R (i + 3)) (R (i + 2)) (R (i + 1)) (Z.to_nat (md5_word (Z.of_nat i))) (md5_shift (Z.of_nat i)) (nth i md5_table 0).

Lemma rounds_ok : round1 = map op_of (seq 0 16) /\ round2 = map op_of (seq 16 16) /\
  round3 = map op_of (seq 32 16) /\ round4 = map op_of (seq 48 16).
Proof. repeat split; vm_compute; reflexivity. Qed.

Definition isw (x : Z) : Prop := 0 <= x < 2 ^ 32.
Definition sim (i : nat) (l : list Z) (s : Z * Z * Z * Z) : Prop :=
  let '(x, y, z, w) := s in
  length l = 4%nat /\ Forall isw l /\ get l (R i) = x /\ get l (R (i + 3)) = y /\ get l (R (i + 2)) = z /\ get l (R (i + 1)) = w.

Lemma shift_range i : (i < 64)%nat -> 0 <= md5_shift (Z.of_nat i) <= 32.
Proof.
  intros H. unfold md5_shift. assert (Q : (Z.to_nat (Z.of_nat i / 16 * 4 + Z.of_nat i mod 4) < 16)%nat) by lia.
  revert Q. generalize (Z.to_nat (Z.of_nat i / 16 * 4 + Z.of_nat i mod 4)). intros k K.
  do 16 (destruct k as [|k]; [cbn; lia|]). lia.
Qed.

Lemma word_index i : (i < 64)%nat -> 0 <= md5_word (Z.of_nat i) < 16.
Proof. intros H. unfold md5_word. destruct (_ <? _) eqn:E; [lia|]. destruct (_ <? 32); [lia|]. destruct (_ <? 48); lia. Qed.

Local Opaque md5_table md5_shift md5_word md5_fun cyclic rotl u32 word word_of.

Lemma step_ok f x b i l s : (i < 64)%nat -> sim i l s ->
  (forall y z w, f y z w = md5_fun (Z.of_nat i) y z w) ->
  (forall k, (k < 16)%nat -> x k = word_of b (Z.of_nat k)) ->
  sim (i + 1) (run_op f x l (op_of i)) (md5_step b s (Z.of_nat i)).
Proof.
  intros I S F X. destruct s as [[[p q] r] t]. destruct S as (L & W & <- & <- & <- & <-).
  unfold md5_step, run_op, op_of. cbn [ra rb rc rd rk rs rt]. rewrite Nat2Z.id.
  pose proof (word_index i I) as WI. rewrite F. rewrite X by lia. rewrite Z2Nat.id by lia.
  rewrite cyclic_ok by (apply u32_range || apply shift_range; exact I).
  rewrite !u32_word.
  replace (get l (R i) + (md5_fun (Z.of_nat i) (get l (R (i + 3))) (get l (R (i + 2))) (get l (R (i + 1))) + word_of b (md5_word (Z.of_nat i)) + nth i md5_table 0))
    with (get l (R i) + md5_fun (Z.of_nat i) (get l (R (i + 3))) (get l (R (i + 2))) (get l (R (i + 1))) + word_of b (md5_word (Z.of_nat i)) + nth i md5_table 0) by lia.
  rewrite (Z.add_comm (rotl _ _)).
  match goal with |- sim _ (set l (R i) ?v) _ => set (nv := v) end.
  change (sim (i + 1) (set l (R i) nv) (get l (R (i + 1)), nv, get l (R (i + 3)), get l (R (i + 2)))).
  assert (NV : isw nv) by (unfold nv; rewrite <- u32_word; apply u32_range). clearbody nv.
  destruct l as [|a [|b0 [|c [|d [|]]]]]; try discriminate L.
  inversion W as [|? ? W1 W']; subst. inversion W' as [|? ? W2 W'']; subst. inversion W'' as [|? ? W3 W3']; subst. inversion W3' as [|? ? W4 _]; subst.
  unfold sim, R.
  assert (M : (i mod 4 = 0 \/ i mod 4 = 1 \/ i mod 4 = 2 \/ i mod 4 = 3)%nat) by lia.
  destruct M as [M|[M|[M|M]]].
  - replace ((i + 1) mod 4)%nat with 1%nat by lia. replace ((i + 2) mod 4)%nat with 2%nat by lia. replace ((i + 3) mod 4)%nat with 3%nat by lia.
    replace ((i + 1 + 1) mod 4)%nat with 2%nat by lia. replace ((i + 1 + 2) mod 4)%nat with 3%nat by lia. replace ((i + 1 + 3) mod 4)%nat with 0%nat by lia.
    rewrite M. cbn. split; [reflexivity|]. split; [repeat constructor; assumption || apply NV || apply W1 || apply W2 || apply W3 || apply W4|]. auto 10.
  - replace ((i + 1) mod 4)%nat with 2%nat by lia. replace ((i + 2) mod 4)%nat with 3%nat by lia. replace ((i + 3) mod 4)%nat with 0%nat by lia.
    replace ((i + 1 + 1) mod 4)%nat with 3%nat by lia. replace ((i + 1 + 2) mod 4)%nat with 0%nat by lia. replace ((i + 1 + 3) mod 4)%nat with 1%nat by lia.
    rewrite M. cbn. split; [reflexivity|]. split; [repeat constructor; assumption || apply NV || apply W1 || apply W2 || apply W3 || apply W4|]. auto 10.
  - replace ((i + 1) mod 4)%nat with 3%nat by lia. replace ((i + 2) mod 4)%nat with 0%nat by lia. replace ((i + 3) mod 4)%nat with 1%nat by lia.
    replace ((i + 1 + 1) mod 4)%nat with 0%nat by lia. replace ((i + 1 + 2) mod 4)%nat with 1%nat by lia. replace ((i + 1 + 3) mod 4)%nat with 2%nat by lia.
    rewrite M. cbn. split; [reflexivity|]. split; [repeat constructor; assumption || apply NV || apply W1 || apply W2 || apply W3 || apply W4|]. auto 10.
  - replace ((i + 1) mod 4)%nat with 0%nat by lia. replace ((i + 2) mod 4)%nat with 1%nat by lia. replace ((i + 3) mod 4)%nat with 2%nat by lia.
    replace ((i + 1 + 1) mod 4)%nat with 1%nat by lia. replace ((i + 1 + 2) mod 4)%nat with 2%nat by lia. replace ((i + 1 + 3) mod 4)%nat with 3%nat by lia.
    rewrite M. cbn. split; [reflexivity|]. split; [repeat constructor; assumption || apply NV || apply W1 || apply W2 || apply W3 || apply W4|]. auto 10.
Qed.

Lemma round_ok f x b k : forall i l s, (i + k <= 64)%nat -> sim i l s ->
  (forall j y z w, (i <= j < i + k)%nat -> f y z w = md5_fun (Z.of_nat j) y z w) ->
  (forall k, (k < 16)%nat -> x k = word_of b (Z.of_nat k)) ->
  sim (i + k) (fold_left (run_op f x) (map op_of (seq i k)) l) (fold_left (md5_step b) (map Z.of_nat (seq i k)) s).
Proof.
  induction k as [|k IH]; intros i l s I S F X.
  - rewrite Nat.add_0_r. exact S.
  - cbn [seq map fold_left]. replace (i + Datatypes.S k)%nat with (i + 1 + k)%nat by lia. replace (Datatypes.S i) with (i + 1)%nat by lia.
    apply IH; [lia| |intros; apply F; lia|exact X].
    apply step_ok; [lia|exact S|intros; apply F; lia|exact X].
Qed.

Lemma steps_split : steps 64 = map Z.of_nat (seq 0 16) ++ map Z.of_nat (seq 16 16) ++ map Z.of_nat (seq 32 16) ++ map Z.of_nat (seq 48 16).
Proof. reflexivity. Qed.
Lemma last_regs : R 64 = A /\ R (64 + 3) = B /\ R (64 + 2) = C /\ R (64 + 1) = D.
Proof. auto. Qed.
Lemma end_ok l4 s4 x y z w : sim 64 l4 s4 ->
  [u32 (get l4 A + get [x; y; z; w] A); u32 (get l4 B + get [x; y; z; w] B); u32 (get l4 C + get [x; y; z; w] C); u32 (get l4 D + get [x; y; z; w] D)] =
  (let '(x', y', z', w') := s4 in [word (x + x'); word (y + y'); word (z + z'); word (w + w')]).
Proof.
  destruct s4 as [[[p q] r] t]. intros (L4 & _ & E1 & E2 & E3 & E4).
  destruct last_regs as (R1 & R2 & R3 & R4).
  rewrite R1 in E1. rewrite R2 in E2. rewrite R3 in E3. rewrite R4 in E4. subst p q r t.
  rewrite !u32_word. rewrite !(Z.add_comm (get l4 _)). reflexivity.
Qed.

Lemma body_ok l b : length l = 4%nat -> Forall isw l -> length b = 64%nat -> md5_body l b = md5_block l b.
Proof.
  intros L W LB. destruct l as [|x [|y [|z [|w [|]]]]]; try discriminate L.
  assert (X : forall k, (k < 16)%nat -> load32 b k = word_of b (Z.of_nat k)) by (intros; apply load32_ok; lia).
  unfold md5_body, md5_block. rewrite steps_split, !fold_left_app. destruct rounds_ok as (-> & -> & -> & ->).
  assert (S0 : sim 0 [x; y; z; w] (x, y, z, w)) by (unfold sim; repeat split; auto).
  pose proof (round_ok FF (load32 b) b 16 0 _ _ ltac:(lia) S0 ltac:(intros; apply FF_ok; lia) X) as S1.
  rewrite Nat.add_0_l in S1.
  revert S1. generalize (fold_left (run_op FF (load32 b)) (map op_of (seq 0 16)) [x; y; z; w]) as l1.
  generalize (fold_left (md5_step b) (map Z.of_nat (seq 0 16)) (x, y, z, w)) as s1. intros s1 l1 S1.
  pose proof (round_ok FG (load32 b) b 16 16 _ _ ltac:(lia) S1 ltac:(intros; apply FG_ok; lia) X) as S2.
  revert S2. generalize (fold_left (run_op FG (load32 b)) (map op_of (seq 16 16)) l1) as l2.
  generalize (fold_left (md5_step b) (map Z.of_nat (seq 16 16)) s1) as s2. intros s2 l2 S2.
  replace (16 + 16)%nat with 32%nat in S2 by reflexivity.
  pose proof (round_ok FH (load32 b) b 16 32 _ _ ltac:(lia) S2 ltac:(intros; apply FH_ok; lia) X) as S3.
  revert S3. generalize (fold_left (run_op FH (load32 b)) (map op_of (seq 32 16)) l2) as l3.
  generalize (fold_left (md5_step b) (map Z.of_nat (seq 32 16)) s2) as s3. intros s3 l3 S3.
  replace (32 + 16)%nat with 48%nat in S3 by reflexivity.
  pose proof (round_ok FI (load32 b) b 16 48 _ _ ltac:(lia) S3 ltac:(intros; apply FI_ok; lia) X) as S4.
  revert S4. generalize (fold_left (run_op FI (load32 b)) (map op_of (seq 48 16)) l3) as l4.
  generalize (fold_left (md5_step b) (map Z.of_nat (seq 48 16)) s3) as s4. intros s4 l4 S4.
  replace (48 + 16)%nat with 64%nat in S4 by reflexivity.
  exact (end_ok l4 s4 x y z w S4).
Qed.

Lemma block_state l b : length l = 4%nat -> length (md5_block l b) = 4%nat /\ Forall isw (md5_block l b).
Proof.
  intros L. destruct l as [|x [|y [|z [|w [|]]]]]; try discriminate L. unfold md5_block.
  destruct (fold_left _ _ _) as [[[p q] r] t]. split; [reflexivity|].
  repeat (constructor; [rewrite <- u32_word; apply u32_range|]). constructor.
Qed.

Lemma fold_ok bs : forall l, length l = 4%nat -> Forall isw l -> Forall (fun b => length b = 64%nat) bs ->
  fold_left md5_body bs l = fold_left md5_block bs l.
Proof.
  induction bs as [|b bs IH]; intros l L W F; [reflexivity|]. inversion F as [|? ? F1 F2]; subst. cbn [fold_left].
  rewrite body_ok by auto. destruct (block_state l b L). apply IH; auto.
Qed.

Lemma in_blocks_length m bs : in_blocks m bs -> Forall (fun b => length b = 64%nat) bs.
Proof. induction 1; constructor; auto. lia. Qed.

(** Taking bytes. *)
Lemma process_ok start m c data : rep md5_body start m c -> Z.of_nat (length data) < 4294967296 ->
  exists c', md5_process_bytes data c = Ok c' /\ rep md5_body start (m ++ data) c'.
Proof.
  intros Rp LD. destruct (top_up_ok md5_body start m c data Rp LD) as (d1 & d2 & c1 & E & D & Rp1 & Z1).
  unfold md5_process_bytes. rewrite E. cbn [obind]. subst data. rewrite app_assoc.
  remember (m ++ d1) as m1 eqn:M1. clear M1 E Rp. rewrite app_length in LD.
  destruct (Nat.ltb_spec 64 (length d2)) as [H|H].
  - assert (NE : d2 <> []) by (intros ->; cbn in H; lia).
    destruct (rep_empty md5_body start m1 c1 Rp1 (Z1 NE)) as (Co & Lb).
    destruct (whole_le (length d2)) as (W1 & W2 & j & W3).
    assert (Co2 : core md5_body start (m1 ++ firstn (whole (length d2)) d2) (process_block md5_body (firstn (whole (length d2)) d2) c1)).
    { apply core_block with (j := j); [exact Co| |]; rewrite firstn_length; lia. }
    set (c2 := process_block md5_body (firstn (whole (length d2)) d2) c1) in *.
    assert (B2 : buf c2 = buf c1 /\ buflen c2 = 0%nat) by (split; [reflexivity|exact (Z1 NE)]). destruct B2 as (B2 & Z2). clearbody c2.
    assert (LS : length (skipn (whole (length d2)) d2) = (length d2 mod 64)%nat) by (rewrite skipn_length; lia).
    destruct (Nat.ltb_spec 0 (length (skipn (whole (length d2)) d2))) as [P|P].
    + destruct (blit_ok (buf c2) 0 (skipn (whole (length d2)) d2)) as (b & Bb & Lbb & Fb); [congruence|lia|].
      rewrite Bb. cbn [obind]. eexists. split; [reflexivity|].
      exists (m1 ++ firstn (whole (length d2)) d2), (skipn (whole (length d2)) d2).
      split; [rewrite <- app_assoc, firstn_skipn; reflexivity|]. split; [apply core_buf; exact Co2|].
      unfold with_buf. cbn [buflen buf]. split; [reflexivity|]. split; [lia|]. split; [exact Lbb|exact Fb].
    + exists c2. split; [reflexivity|]. exists (m1 ++ d2), []. split; [symmetry; apply app_nil_r|].
      assert (SN : skipn (whole (length d2)) d2 = []) by (destruct (skipn _ d2); [reflexivity|cbn in P; lia]).
      rewrite <- (firstn_skipn (whole (length d2)) d2), SN, app_nil_r. split; [exact Co2|]. rewrite Z2, B2.
      split; [reflexivity|]. split; [lia|]. split; [exact Lb|reflexivity].
  - destruct (Nat.ltb_spec 0 (length d2)) as [P|P].
    + assert (NE : d2 <> []) by (intros ->; cbn in P; lia).
      destruct (rep_empty md5_body start m1 c1 Rp1 (Z1 NE)) as (Co & Lb).
      destruct (blit_ok (buf c1) 0 d2 Lb) as (b & Bb & Lbb & Fb); [lia|].
      rewrite Bb. cbn [obind]. eexists. split; [reflexivity|]. exists m1, d2. split; [reflexivity|]. split; [apply core_buf; exact Co|].
      unfold with_buf. cbn [buflen buf]. split; [reflexivity|]. split; [exact H|]. split; [exact Lbb|exact Fb].
    + destruct d2; [|cbn in P; lia]. exists c1. split; [reflexivity|]. rewrite app_nil_r. exact Rp1.
Qed.

Lemma put_ok start chunks : forall m c, rep md5_body start m c ->
  Forall (fun d => Z.of_nat (length d) < 4294967296) chunks ->
  exists c', md5_put chunks c = Ok c' /\ rep md5_body start (m ++ concat chunks) c'.
Proof.
  induction chunks as [|d r IH]; intros m c Rp F; cbn [md5_put concat].
  - exists c. rewrite app_nil_r. auto.
  - inversion F as [|? ? F1 F2]; subst. destruct (process_ok start m c d Rp F1) as (c' & -> & Rp'). cbn [obind].
    rewrite app_assoc. exact (IH _ _ Rp' F2).
Qed.

(** The end. *)
Lemma finish_ok start m c : rep md5_body start m c ->
  exists k, length (padded (low_first 8) m) = (k * 64)%nat /\
    md5_finish c = Ok (flat_map (low_first 4) (each_block md5_body k start (padded (low_first 8) m))).
Proof.
  intros (m0 & rest & M & Co & Lr & Lb & L & F). unfold md5_finish.
  assert (CL : counted (count (Z.of_nat (buflen c)) c) (Z.of_nat (length m))).
  { destruct Co as (k & _ & _ & T). rewrite M, app_length, Nat2Z.inj_add, Lr. apply count_ok; [exact T|lia]. }
  set (pad := if (56 <=? buflen c)%nat then (64 + 56 - buflen c)%nat else (56 - buflen c)%nat).
  assert (P : (0 < pad <= 64 /\ (buflen c + pad = 56 \/ buflen c + pad = 120))%nat) by (unfold pad; destruct (Nat.leb_spec 56 (buflen c)); lia).
  assert (PZ : Z.of_nat (pad - 1) = (55 - Z.of_nat (length m)) mod 64).
  { destruct Co as (k & Lk & _). rewrite M, app_length, Lk, Lr. rewrite Nat2Z.inj_add, Nat2Z.inj_mul. unfold pad. destruct (Nat.leb_spec 56 (buflen c)); lia. }
  clearbody pad. destruct P as (P1 & P2).
  rewrite fill_ok by exact P1. cbn [obind]. set (p := 128 :: repeat 0 (pad - 1)).
  assert (Lp : length p = pad) by (unfold p; cbn [length]; rewrite repeat_length; lia).
  replace (buf (count (Z.of_nat (buflen c)) c)) with (buf c) by reflexivity.
  destruct (blit_ok (buf c) (buflen c) p L) as (b1 & B1 & L1 & F1); [lia|]. rewrite B1. cbn [obind].
  set (lo := store32 (u32 (Z.shiftl (t0 (count (Z.of_nat (buflen c)) c)) 3))).
  set (hi := store32 (Z.lor (u32 (Z.shiftl (t1 (count (Z.of_nat (buflen c)) c)) 3)) (Z.shiftr (t0 (count (Z.of_nat (buflen c)) c)) 29))).
  assert (LH : lo ++ hi = low_first 8 (8 * Z.of_nat (length m) mod 2 ^ 64)).
  { rewrite low8. unfold lo, hi. rewrite !store32_ok. rewrite (bits_low _ _ CL), (bits_high _ _ CL). reflexivity. }
  assert (Llo : length lo = 4%nat) by reflexivity. assert (Lhi : length hi = 4%nat) by reflexivity. clearbody lo hi.
  destruct (blit_ok b1 (buflen c + pad) lo L1) as (b2 & B2 & L2 & F2); [lia|]. rewrite B2. cbn [obind].
  destruct (blit_ok b2 (buflen c + pad + 4) hi L2) as (b3 & B3 & L3 & F3); [lia|]. rewrite B3. cbn [obind].
  rewrite Lp in F1. rewrite Llo in F2. rewrite Lhi in F3. replace (buflen c + pad + 4 + 4)%nat with (buflen c + pad + 8)%nat in F3 by lia.
  rewrite F2, F1, F in F3.
  assert (PM : padded (low_first 8) m = m0 ++ firstn (buflen c + pad + 8) b3).
  { rewrite F3. unfold padded. rewrite <- LH, <- PZ, Nat2Z.id. unfold p. rewrite M, <- !app_assoc. reflexivity. }
  assert (LX : exists j, length (firstn (buflen c + pad + 8) b3) = (j * 64)%nat /\ (j <= 2)%nat).
  { rewrite firstn_length, L3. destruct P2; [exists 1%nat|exists 2%nat]; lia. }
  destruct LX as (j & LX & J).
  set (c0 := count (Z.of_nat (buflen c)) c) in *.
  destruct Co as (k & Lk & Rk & Tk).
  exists (k + j)%nat. rewrite PM. split; [rewrite app_length; lia|]. f_equal.
  unfold process_block. cbn [regs count with_buf].
  rewrite (each_block_app md5_body k) by exact Lk. rewrite <- Rk.
  replace (length (firstn (buflen c + pad + 8) b3) / 64)%nat with j by (rewrite LX; symmetry; apply Nat.div_mul; lia).
  replace (regs c0) with (regs c) by reflexivity.
  induction (each_block md5_body j (regs c) (firstn (buflen c + pad + 8) b3)) as [|w ws IH]; [reflexivity|].
  cbn [flat_map]. rewrite store32_ok, IH. reflexivity.
Qed.

Lemma digest_ok junk chunks : length junk = 128%nat -> Forall (fun d => Z.of_nat (length d) < 4294967296) chunks ->
  exists d, md5_digest junk chunks = Ok d /\ md5_of (concat chunks) d.
Proof.
  intros J F. unfold md5_digest.
  destruct (put_ok _ chunks [] (md5_init junk) (rep_init md5_body _ junk J) F) as (c & -> & Rp). cbn [obind app] in *.
  destruct (finish_ok _ _ _ Rp) as (k & Lk & ->). eexists. split; [reflexivity|].
  set (start := [0x67452301; 0xefcdab89; 0x98badcfe; 0x10325476]).
  destruct (each_block_fold md5_body k start (padded (low_first 8) (concat chunks)) Lk) as (bs & I & E).
  exists bs. split; [exact I|]. f_equal. change (regs (md5_init junk)) with start in *.
  etransitivity; [exact E|]. apply fold_ok; [reflexivity| |exact (in_blocks_length _ _ I)].
  unfold start, isw. repeat constructor; cbn; lia.
Qed.

(** The relation of the standard is a function. *)
Lemma in_blocks_unique m bs : in_blocks m bs -> forall m' bs', in_blocks m' bs' -> m = m' -> bs = bs'.
Proof.
  induction 1 as [|b l bs Lb I IH]; intros m' bs' I' E; destruct I' as [|b' l' bs' Lb' I'].
  - reflexivity.
  - destruct b'; [cbn in Lb'; lia|discriminate].
  - destruct b; [cbn in Lb; lia|discriminate].
  - assert (EB : b = b' /\ l = l').
    { apply (f_equal (fun x => (firstn (length b) x, skipn (length b) x))) in E. inversion E as [[E1 E2]].
      rewrite firstn_app, Nat.sub_diag, firstn_all, firstn_O, app_nil_r in E1.
      rewrite skipn_app, Nat.sub_diag, skipn_all, skipn_O in E2. cbn [app] in E2.
      assert (LL : length b = length b') by lia. rewrite LL in E1, E2.
      rewrite firstn_app, Nat.sub_diag, firstn_all, firstn_O, app_nil_r in E1.
      rewrite skipn_app, Nat.sub_diag, skipn_all, skipn_O in E2. auto. }
    destruct EB as [-> ->]. f_equal. apply (IH l' bs' I'). reflexivity.
Qed.

Lemma hash_unique pad body start out m d d' :
  hash_of pad body start out m d -> hash_of pad body start out m d' -> d = d'.
Proof. intros (bs & I & ->) (bs' & I' & ->). rewrite (in_blocks_unique _ _ I _ _ I' eq_refl). reflexivity. Qed.

Lemma md5_of_hex m d : md5_of m d -> length d = 16%nat /\ reads_as (hex_digest d) d.
Proof.
  intros (bs & I & ->). split; [|apply hex_ok, out_bytes].
  assert (G : forall bs s, length s = 4%nat -> length (fold_left md5_block bs s) = 4%nat).
  { clear. induction bs as [|b bs IH]; intros s L; [exact L|]. cbn [fold_left]. apply IH. apply block_state. exact L. }
  specialize (G bs [0x67452301; 0xefcdab89; 0x98badcfe; 0x10325476] eq_refl).
  revert G. generalize (fold_left md5_block bs [0x67452301; 0xefcdab89; 0x98badcfe; 0x10325476]).
  intros [|x [|y [|z [|w [|]]]]] L; try discriminate L. reflexivity.
Qed.

Lemma pieces_ok fuel : forall l, (length l < fuel)%nat ->
  concat (pieces fuel l) = l /\ Forall (fun d => length d <= 4 * 256)%nat (pieces fuel l).
Proof.
  assert (P : (0 < 4 * 256)%nat) by lia.
  induction fuel as [|fuel IH]; intros l H; [lia|]. cbn [pieces].
  revert IH P. generalize (4 * 256)%nat. intros n IH P.
  destruct (Nat.ltb_spec (length l) n) as [K|K].
  - cbn [concat]. rewrite app_nil_r. split; [reflexivity|]. repeat constructor. lia.
  - destruct (IH (skipn n l)) as [E F]; [rewrite skipn_length; lia|]. cbn [concat]. rewrite E, firstn_skipn. split; [reflexivity|].
    constructor; [rewrite firstn_length; lia|exact F].
Qed.

Lemma stream_ok junk l : length junk = 128%nat ->
  exists d, md5_digest junk (pieces (S (length l)) l) = Ok d /\ md5_of l d.
Proof.
  intros J. destruct (pieces_ok (S (length l)) l) as [E F]; [lia|].
  destruct (digest_ok junk (pieces (S (length l)) l) J) as (d & D & M).
  { eapply Forall_impl; [|exact F]. cbn beta. intros a Ha. lia. }
  rewrite E in M. exists d. auto.
Qed.

Lemma same_digest junk junk' chunks chunks' : length junk = 128%nat -> length junk' = 128%nat ->
  Forall (fun d => Z.of_nat (length d) < 4294967296) chunks -> Forall (fun d => Z.of_nat (length d) < 4294967296) chunks' ->
  concat chunks = concat chunks' -> md5_digest junk chunks = md5_digest junk' chunks'.
Proof.
  intros J J' F F' E. destruct (digest_ok junk chunks J F) as (d & -> & M). destruct (digest_ok junk' chunks' J' F') as (d' & -> & M').
  f_equal. rewrite E in M. exact (hash_unique _ _ _ _ _ _ _ M M').
Qed.
