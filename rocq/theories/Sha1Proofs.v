(** Proofs about SHA-1. *)
From Verif Require Import Base Digest Sha1 DigestSpec DigestProofs Md5Proofs.
From Verif Require Md5.
Local Open Scope Z_scope.

(** Words in the other order. *)
Lemma land_ff00 n : Z.land n 65280 = n / 256 mod 256 * 256.
Proof.
  change 256 with (2 ^ 8). rewrite <- Z.land_ones by lia. rewrite <- Z.shiftr_div_pow2, <- Z.shiftl_mul_pow2 by lia.
  apply Z.bits_inj'. intros k K. change 65280 with (Z.shiftl (Z.ones 8) 8).
  rewrite Z.land_spec. destruct (Z.ltb_spec k 8).
  - rewrite !Z.shiftl_spec_low by lia. apply andb_false_r.
  - rewrite !Z.shiftl_spec by lia. rewrite Z.land_spec, Z.shiftr_spec by lia. f_equal. f_equal. lia.
Qed.

Lemma swap_ok n : 0 <= n < 2 ^ 32 ->
  swap n = n mod 256 * 16777216 + n / 256 mod 256 * 65536 + n / 65536 mod 256 * 256 + n / 16777216.
Proof.
  intros H. change (2 ^ 32) with 4294967296 in H. unfold swap.
  replace (u32 (Z.shiftl n 24)) with (n mod 256 * 2 ^ 24) by (rewrite Z.shiftl_mul_pow2 by lia; unfold u32; change (2 ^ 24) with 16777216; lia).
  replace (u32 (Z.shiftl (Z.land n 65280) 8)) with (n / 256 mod 256 * 2 ^ 16)
    by (rewrite land_ff00, Z.shiftl_mul_pow2 by lia; unfold u32; change (2 ^ 16) with 65536; change (2 ^ 8) with 256; lia).
  replace (Z.land (Z.shiftr n 8) 65280) with (n / 65536 mod 256 * 2 ^ 8)
    by (rewrite land_ff00, Z.shiftr_div_pow2 by lia; change (2 ^ 8) with 256; lia).
  replace (Z.shiftr n 24) with (n / 16777216) by (rewrite Z.shiftr_div_pow2 by lia; reflexivity).
  rewrite <- !Z.lor_assoc.
  rewrite (lor_add _ (n / 16777216) 8) by (change (2 ^ 8) with 256; lia).
  rewrite (lor_add _ _ 16) by (change (2 ^ 16) with 65536; change (2 ^ 8) with 256; lia).
  rewrite (lor_add _ _ 24) by (change (2 ^ 16) with 65536; change (2 ^ 8) with 256; change (2 ^ 24) with 16777216; lia).
  change (2 ^ 16) with 65536; change (2 ^ 8) with 256; change (2 ^ 24) with 16777216. lia.
Qed.

Lemma low_cons n p y : byte p -> low_first (S n) (p + 256 * y) = p :: low_first n y.
Proof. unfold byte. intros P. cbn [low_first]. f_equal; [lia|]. f_equal. lia. Qed.
Lemma four_bytes n : 0 <= n < 2 ^ 32 -> exists p q r s, byte p /\ byte q /\ byte r /\ byte s /\ n = p + 256 * (q + 256 * (r + 256 * s)).
Proof.
  intros H. change (2 ^ 32) with 4294967296 in H. unfold byte.
  exists (n mod 256), (n / 256 mod 256), (n / 65536 mod 256), (n / 16777216). lia.
Qed.
Lemma swap_bytes p q r s : byte p -> byte q -> byte r -> byte s ->
  swap (p + 256 * (q + 256 * (r + 256 * s))) = s + 256 * (r + 256 * (q + 256 * p)).
Proof.
  unfold byte. intros P Q R S. rewrite swap_ok by (change (2 ^ 32) with 4294967296; lia).
  replace ((p + 256 * (q + 256 * (r + 256 * s))) mod 256) with p by lia.
  replace ((p + 256 * (q + 256 * (r + 256 * s))) / 256) with (q + 256 * (r + 256 * s)) by lia.
  replace ((p + 256 * (q + 256 * (r + 256 * s))) / 65536) with (r + 256 * s) by lia.
  replace ((p + 256 * (q + 256 * (r + 256 * s))) / 16777216) with s by lia.
  replace ((q + 256 * (r + 256 * s)) mod 256) with q by lia.
  replace ((r + 256 * s) mod 256) with r by lia. lia.
Qed.
Lemma store_swap n : 0 <= n < 2 ^ 32 -> store32 (swap n) = high_first 4 n.
Proof.
  intros H. destruct (four_bytes n H) as (p & q & r & s & P & Q & R & T & ->). rewrite swap_bytes by assumption.
  rewrite store32_ok. unfold high_first. rewrite <- (Z.add_0_r s) at 2. rewrite <- (Z.add_0_r p) at 1.
  replace (s + 0) with (s + 256 * 0) by lia. replace (p + 0) with (p + 256 * 0) by lia.
  rewrite !low_cons by assumption. reflexivity.
Qed.

Lemma load_swap b k : Forall byte b -> (4 * k + 4 <= length b)%nat -> swap (load32 b k) = big_word_of b (Z.of_nat k).
Proof.
  intros F L. rewrite load32_ok by exact L.
  unfold word_of, big_word_of. replace (Z.to_nat (4 * Z.of_nat k)) with (4 * k)%nat by lia.
  assert (Lq : length (firstn 4 (skipn (4 * k) b)) = 4%nat) by (rewrite firstn_length, skipn_length; lia).
  assert (Fq : Forall byte (firstn 4 (skipn (4 * k) b))).
  { apply Forall_forall. intros x Hx. rewrite Forall_forall in F. apply F.
    rewrite <- (firstn_skipn (4 * k) b). apply in_or_app. right. rewrite <- (firstn_skipn 4 (skipn (4 * k) b)). apply in_or_app. left. exact Hx. }
  destruct (firstn 4 (skipn (4 * k) b)) as [|x [|y [|z [|w [|]]]]]; try discriminate Lq.
  inversion Fq as [|? ? F1 Fq1]; subst. inversion Fq1 as [|? ? F2 Fq2]; subst. inversion Fq2 as [|? ? F3 Fq3]; subst. inversion Fq3 as [|? ? F4 _]; subst.
  cbn [number rev app]. pose proof (swap_bytes x y z w F1 F2 F3 F4) as G.
  replace (x + 256 * (y + 256 * (z + 256 * (w + 256 * 0)))) with (x + 256 * (y + 256 * (z + 256 * w))) by lia. rewrite G. lia.
Qed.

(** Words. *)
Lemma lxor_range a b : isw a -> isw b -> isw (Z.lxor a b).
Proof.
  unfold isw. intros A B.
  assert (E : Z.lxor a b = Z.lxor a b mod 2 ^ 32).
  { apply Z.bits_inj'. intros k K. destruct (Z.ltb_spec k 32).
    - rewrite Z.mod_pow2_bits_low by lia. reflexivity.
    - rewrite Z.mod_pow2_bits_high by lia. rewrite Z.lxor_spec.
      rewrite <- (Z.mod_small a (2 ^ 32)), <- (Z.mod_small b (2 ^ 32)) by assumption.
      rewrite !Z.mod_pow2_bits_high by lia. reflexivity. }
  rewrite E. apply Z.mod_pos_bound. lia.
Qed.
Lemma rotl1 x : isw x -> isw (rotl 1 x).
Proof. unfold isw, rotl. change (2 ^ (32 - 1)) with 2147483648. change (2 ^ 32) with 4294967296. change (2 ^ 1) with 2. lia. Qed.
Lemma rotl30 x : isw x -> isw (rotl 30 x).
Proof. unfold isw, rotl. change (2 ^ (32 - 30)) with 4. change (2 ^ 32) with 4294967296. change (2 ^ 30) with 1073741824. lia. Qed.

Lemma words_length n b : length (sha1_words n b) = (16 + n)%nat.
Proof. induction n as [|n IH]; [reflexivity|]. cbn [sha1_words]. rewrite app_length, IH. cbn [length]. lia. Qed.
Lemma words_next n b t : (16 <= t < 16 + n)%nat ->
  nth t (sha1_words n b) 0 =
  rotl 1 (Z.lxor (Z.lxor (nth (t - 3) (sha1_words n b) 0) (nth (t - 8) (sha1_words n b) 0))
    (Z.lxor (nth (t - 14) (sha1_words n b) 0) (nth (t - 16) (sha1_words n b) 0))).
Proof.
  induction n as [|n IH]; intros T; [lia|]. cbn [sha1_words]. pose proof (words_length n b) as L.
  remember (sha1_words n b) as w eqn:W. clear W.
  rewrite !(app_nth1 w _ 0 (n := t - 3)), !(app_nth1 w _ 0 (n := t - 8)), !(app_nth1 w _ 0 (n := t - 14)), !(app_nth1 w _ 0 (n := t - 16)) by lia.
  destruct (Nat.eq_dec t (16 + n)) as [->|NE].
  - rewrite app_nth2 by lia. rewrite L, Nat.sub_diag. reflexivity.
  - rewrite app_nth1 by lia. apply IH. lia.
Qed.
Lemma words_first n b t : (t < 16)%nat -> nth t (sha1_words n b) 0 = big_word_of b (Z.of_nat t).
Proof.
  intros T. induction n as [|n IH].
  - cbn [sha1_words]. do 16 (destruct t as [|t]; [reflexivity|]). lia.
  - cbn [sha1_words]. rewrite app_nth1 by (rewrite words_length; lia). exact IH.
Qed.
Lemma big_range b k : Forall byte b -> isw (big_word_of b k).
Proof.
  intros F. unfold big_word_of, isw.
  assert (Fq : Forall byte (rev (firstn 4 (skipn (Z.to_nat (4 * k)) b)))).
  { apply Forall_rev. apply Forall_forall. intros x Hx. rewrite Forall_forall in F. apply F.
    rewrite <- (firstn_skipn (Z.to_nat (4 * k)) b). apply in_or_app. right. rewrite <- (firstn_skipn 4 (skipn (Z.to_nat (4 * k)) b)). apply in_or_app. left. exact Hx. }
  assert (Lq : (length (rev (firstn 4 (skipn (Z.to_nat (4 * k)) b))) <= 4)%nat) by (rewrite rev_length, firstn_length; lia).
  revert Fq Lq. generalize (rev (firstn 4 (skipn (Z.to_nat (4 * k)) b))). intros q Fq Lq.
  destruct q as [|x [|y [|z [|w [|]]]]]; cbn [length] in Lq; try lia; cbn [number];
    repeat match goal with H : Forall byte (_ :: _) |- _ => inversion H; subst; clear H end; unfold byte in *; lia.
Qed.
Lemma words_range b : Forall byte b -> forall t, (t < 80)%nat -> isw (nth t (sha1_words 64 b) 0).
Proof.
  intros F t. induction t as [t IH] using (well_founded_induction lt_wf). intros T.
  destruct (Nat.ltb_spec t 16).
  - rewrite words_first by lia. apply big_range, F.
  - rewrite words_next by lia. apply rotl1. repeat apply lxor_range; apply IH; lia.
Qed.

(** The functions. *)
Lemma F1_ok b c d : F1 b c d = Z.lor (Z.land b c) (Z.land (Z.lnot b) d).
Proof. unfold F1. bitwise. Qed.
Lemma F2_ok b c d : F2 b c d = Z.lxor b (Z.lxor c d).
Proof. unfold F2. bitwise. Qed.
Lemma F3_ok b c d : F3 b c d = Z.lor (Z.land b c) (Z.lor (Z.land b d) (Z.land c d)).
Proof. unfold F3. bitwise. Qed.

(** The steps, with the variables in turn. *)
Definition R (i : nat) : reg :=
  match (i mod 5)%nat with 0%nat => A | 1%nat => E | 2%nat => D | 3%nat => C | _ => B end.
Definition F (i : nat) : Z -> Z -> Z -> Z :=
  if (i <? 20)%nat then F1 else if (i <? 40)%nat then F2 else if (i <? 60)%nat then F3 else F4.
Definition step_of (i : nat) : step :=
  mkR (R i) (R (i + 4)) (R (i + 3)) (R (i + 2)) (R (i + 1)) (F i) (sha1_const (Z.of_nat i)) (16 <=? i)%nat i.
Lemma steps_ok : sha1_steps = map step_of (seq 0 80).
Proof. vm_compute. reflexivity. Qed.
Lemma F_ok i b c d : F i b c d = sha1_fun (Z.of_nat i) b c d.
Proof.
  unfold F, sha1_fun.
  replace (Z.of_nat i <? 20) with (i <? 20)%nat by lia. replace (Z.of_nat i <? 40) with (i <? 40)%nat by lia. replace (Z.of_nat i <? 60) with (i <? 60)%nat by lia.
  destruct (i <? 20)%nat; [apply F1_ok|]. destruct (i <? 40)%nat; [apply F2_ok|]. destruct (i <? 60)%nat; [apply F3_ok|apply F2_ok].
Qed.

Definition circ (W : list Z) (i : nat) (x : list Z) : Prop :=
  length x = 16%nat /\ forall j, (j < Nat.max 16 i <= j + 16)%nat -> nth (j mod 16) x 0 = nth j W 0.
Definition sim (i : nat) (l : list Z) (s : Z * Z * Z * Z * Z) : Prop :=
  let '(a, b, c, d, e) := s in
  length l = 5%nat /\ Forall isw l /\ get l (R i) = a /\ get l (R (i + 4)) = b /\ get l (R (i + 3)) = c /\
  get l (R (i + 2)) = d /\ get l (R (i + 1)) = e.

Lemma put_length l i v : (i < length l)%nat -> length (put l i v) = length l.
Proof. intros H. unfold put. rewrite app_length. cbn [length]. rewrite firstn_length, skipn_length. lia. Qed.
Lemma put_nth i v : forall l j, (i < length l)%nat -> nth j (put l i v) 0 = if (j =? i)%nat then v else nth j l 0.
Proof.
  unfold put. induction i as [|i IH]; intros l j H; destruct l as [|x l]; cbn [length] in H; try lia.
  - destruct j; reflexivity.
  - destruct j as [|j]; [reflexivity|]. cbn [firstn skipn app nth Nat.eqb]. apply IH. lia.
Qed.

Lemma M_ok W b i x : W = sha1_words 64 b -> Forall byte b -> (16 <= i < 80)%nat -> circ W i x -> M x i = nth i W 0.
Proof.
  intros -> Fb I (L & X). unfold M.
  assert (X0 : nth (i mod 16) x 0 = nth (i - 16) (sha1_words 64 b) 0) by (rewrite <- X by lia; f_equal; lia).
  rewrite X0. rewrite !X by lia.
  rewrite cyclic_ok; [|repeat apply lxor_range; apply words_range; auto; lia|lia].
  rewrite (words_next 64 b i) by lia. f_equal. bitwise.
Qed.

Lemma circ_next W i x : (16 <= i)%nat -> circ W i x -> circ W (i + 1) (put x (i mod 16) (nth i W 0)).
Proof.
  intros I (L & X). split; [rewrite put_length; lia|]. intros j J. rewrite put_nth by lia.
  destruct (Nat.eqb_spec (j mod 16) (i mod 16)) as [E0|N].
  - f_equal. lia.
  - apply X. assert (j <> i) by congruence. lia.
Qed.
Lemma circ_same W i x : (i < 16)%nat -> circ W i x -> circ W (i + 1) x.
Proof. intros I (L & X). split; [exact L|]. intros j J. apply X. lia. Qed.

Local Opaque sha1_const cyclic rotl u32 word sha1_words sha1_fun F M.

Lemma regs_ok i l a b c d e nv rv : sim i l (a, b, c, d, e) -> isw nv -> isw rv ->
  sim (i + 1) (set (set l (R (i + 1)) nv) (R (i + 4)) rv) (nv, a, rv, c, d).
Proof.
  intros (L & W & <- & <- & <- & <- & <-) NV RV.
  destruct l as [|x0 [|x1 [|x2 [|x3 [|x4 [|]]]]]]; try discriminate L.
  inversion W as [|? ? W1 W']; subst. inversion W' as [|? ? W2 W'']; subst. inversion W'' as [|? ? W3 W3']; subst. inversion W3' as [|? ? W4 W4']; subst. inversion W4' as [|? ? W5 _]; subst.
  unfold sim, R.
  assert (Q : (i mod 5 = 0 \/ i mod 5 = 1 \/ i mod 5 = 2 \/ i mod 5 = 3 \/ i mod 5 = 4)%nat) by lia.
  assert (N : forall k, ((i + k) mod 5 = (i mod 5 + k) mod 5)%nat) by (intros; lia).
  replace (i + 1 + 1)%nat with (i + 2)%nat by lia. replace (i + 1 + 2)%nat with (i + 3)%nat by lia.
  replace (i + 1 + 3)%nat with (i + 4)%nat by lia. replace (i + 1 + 4)%nat with (i + 5)%nat by lia.
  rewrite !N.
  destruct Q as [Q|[Q|[Q|[Q|Q]]]]; rewrite Q; cbn;
    (split; [reflexivity|]; split; [repeat (constructor; [assumption|]); constructor|]; repeat split; reflexivity).
Qed.

Lemma step_ok b i l x s : Forall byte b -> (i < 80)%nat -> sim i l s -> circ (sha1_words 64 b) i x ->
  exists l' x', run_step (l, x) (step_of i) = (l', x') /\
    sim (i + 1) l' (sha1_step (sha1_words 64 b) s (Z.of_nat i)) /\ circ (sha1_words 64 b) (i + 1) x'.
Proof.
  intros Fb I Sm Cx. unfold run_step, step_of. cbn [ra rb rc rd re rf rk rm ri].
  assert (WX : exists x', (if (16 <=? i)%nat then (M x i, put x (i mod 16) (M x i)) else (nth i x 0, x)) = (nth i (sha1_words 64 b) 0, x') /\
    circ (sha1_words 64 b) (i + 1) x').
  { destruct (Nat.leb_spec 16 i).
    - rewrite (M_ok _ b i x eq_refl Fb) by (auto; lia). eexists. split; [reflexivity|]. apply circ_next; auto.
    - exists x. split; [|apply circ_same; auto]. f_equal. destruct Cx as (_ & X). rewrite <- X by lia. f_equal. lia. }
  destruct WX as (x' & -> & C'). do 2 eexists. split; [reflexivity|]. split; [|exact C'].
  destruct s as [[[[a p] c] d] e]. unfold sha1_step. rewrite Nat2Z.id.
  pose proof Sm as (L & Wl & E1 & E2 & E3 & E4 & E5). rewrite F_ok, E1, E2, E3, E4, E5.
  assert (RG : forall r, isw (get l r)).
  { intros r. unfold get. rewrite Forall_forall in Wl. apply Wl. apply nth_In. rewrite L. destruct r; cbn; lia. }
  rewrite (cyclic_ok a 5); [|rewrite <- E1; apply RG|lia].
  rewrite u32_word.
  replace (e + (rotl 5 a + sha1_fun (Z.of_nat i) p c d + sha1_const (Z.of_nat i) + nth i (sha1_words 64 b) 0))
    with (rotl 5 a + sha1_fun (Z.of_nat i) p c d + e + nth i (sha1_words 64 b) 0 + sha1_const (Z.of_nat i)) by lia.
  set (nv := word (rotl 5 a + sha1_fun (Z.of_nat i) p c d + e + nth i (sha1_words 64 b) 0 + sha1_const (Z.of_nat i))).
  assert (NV : isw nv) by (unfold nv; rewrite <- u32_word; apply u32_range). clearbody nv.
  assert (G : get (set l (R (i + 1)) nv) (R (i + 4)) = p).
  { rewrite <- E2. unfold get, set. rewrite put_nth by (rewrite L; destruct (R (i + 1)); cbn; lia).
    destruct (Nat.eqb_spec (idx (R (i + 4))) (idx (R (i + 1)))) as [E0|]; [|reflexivity]. exfalso. revert E0. unfold R.
    assert (Q : (i mod 5 = 0 \/ i mod 5 = 1 \/ i mod 5 = 2 \/ i mod 5 = 3 \/ i mod 5 = 4)%nat) by lia.
    assert (N : forall k, ((i + k) mod 5 = (i mod 5 + k) mod 5)%nat) by (intros; lia). rewrite !N.
    destruct Q as [Q|[Q|[Q|[Q|Q]]]]; rewrite Q; cbn; discriminate. }
  rewrite G. rewrite (cyclic_ok p 30); [|rewrite <- E2; apply RG|lia].
  apply (regs_ok i l a p c d e nv (rotl 30 p) Sm NV). apply rotl30. rewrite <- E2. apply RG.
Qed.

Lemma all_steps b k : forall i l x s, Forall byte b -> (i + k <= 80)%nat -> sim i l s -> circ (sha1_words 64 b) i x ->
  sim (i + k) (fst (fold_left run_step (map step_of (seq i k)) (l, x))) (fold_left (sha1_step (sha1_words 64 b)) (map Z.of_nat (seq i k)) s).
Proof.
  induction k as [|k IH]; intros i l x s Fb I Sm Cx.
  - rewrite Nat.add_0_r. exact Sm.
  - cbn [seq map fold_left]. destruct (step_ok b i l x s Fb ltac:(lia) Sm Cx) as (l' & x' & -> & Sm' & Cx').
    replace (i + S k)%nat with (i + 1 + k)%nat by lia. replace (S i) with (i + 1)%nat by lia. apply IH; auto. lia.
Qed.

Lemma end_ok l4 s4 h0 h1 h2 h3 h4 : sim 80 l4 s4 ->
  (let l := [h0; h1; h2; h3; h4] in
  [u32 (get l A + get l4 A); u32 (get l B + get l4 B); u32 (get l C + get l4 C); u32 (get l D + get l4 D); u32 (get l E + get l4 E)]) =
  (let '(a', b', c', d', e') := s4 in [word (h0 + a'); word (h1 + b'); word (h2 + c'); word (h3 + d'); word (h4 + e')]).
Proof.
  destruct s4 as [[[[p q] r] t] u]. intros (L4 & _ & E1 & E2 & E3 & E4 & E5).
  assert (R80 : R 80 = A /\ R (80 + 4) = B /\ R (80 + 3) = C /\ R (80 + 2) = D /\ R (80 + 1) = E) by (repeat split; reflexivity).
  destruct R80 as (R1 & R2 & R3 & R4 & R5).
  rewrite R1 in E1. rewrite R2 in E2. rewrite R3 in E3. rewrite R4 in E4. rewrite R5 in E5. subst p q r t u.
  cbn zeta. rewrite !u32_word. reflexivity.
Qed.

Lemma body_ok l b : length l = 5%nat -> Forall isw l -> length b = 64%nat -> Forall byte b -> sha1_body l b = sha1_block l b.
Proof.
  intros L W LB Fb. destruct l as [|h0 [|h1 [|h2 [|h3 [|h4 [|]]]]]]; try discriminate L.
  unfold sha1_body, sha1_block, steps. rewrite steps_ok.
  assert (S0 : sim 0 [h0; h1; h2; h3; h4] (h0, h1, h2, h3, h4)) by (unfold sim; repeat split; auto).
  assert (C0 : circ (sha1_words 64 b) 0 (map (fun t => swap (load32 b t)) (seq 0 16))).
  { split; [reflexivity|]. intros j J. rewrite (Nat.mod_small j 16) by lia. rewrite words_first by lia.
    rewrite <- load_swap by (auto; lia). rewrite (nth_indep _ 0 (swap (load32 b 0))) by (rewrite map_length, seq_length; lia).
    rewrite (map_nth (fun t => swap (load32 b t)) (seq 0 16) 0%nat j). rewrite seq_nth by lia. reflexivity. }
  pose proof (all_steps b 80 0 _ _ _ Fb ltac:(lia) S0 C0) as SE. rewrite Nat.add_0_l in SE.
  exact (end_ok _ _ h0 h1 h2 h3 h4 SE).
Qed.

Lemma block_state l b : length l = 5%nat -> length (sha1_block l b) = 5%nat /\ Forall isw (sha1_block l b).
Proof.
  intros L. destruct l as [|h0 [|h1 [|h2 [|h3 [|h4 [|]]]]]]; try discriminate L. unfold sha1_block.
  destruct (fold_left _ _ _) as [[[[p q] r] t] u]. split; [reflexivity|].
  repeat (constructor; [rewrite <- u32_word; apply u32_range|]). constructor.
Qed.

Lemma fold_ok bs : forall l, length l = 5%nat -> Forall isw l -> Forall (fun b => length b = 64%nat) bs -> Forall (Forall byte) bs ->
  fold_left sha1_body bs l = fold_left sha1_block bs l /\ Forall isw (fold_left sha1_block bs l) /\ length (fold_left sha1_block bs l) = 5%nat.
Proof.
  induction bs as [|b bs IH]; intros l L W Fl Fb; [auto|]. inversion Fl as [|? ? Fl1 Fl2]; subst. inversion Fb as [|? ? Fb1 Fb2]; subst. cbn [fold_left].
  rewrite body_ok by auto. destruct (block_state l b L). apply IH; auto.
Qed.

Lemma in_blocks_bytes m bs : in_blocks m bs -> Forall byte m -> Forall (Forall byte) bs.
Proof. induction 1 as [|b l bs Lb I IH]; intros Fb; [constructor|]. apply Forall_app in Fb. destruct Fb. constructor; auto. Qed.

(** Taking bytes. *)
Local Transparent u32 cyclic rotl word.
Lemma unaligned_ok start fuel : forall m c data, core sha1_body start m c -> buflen c = 0%nat -> length (buf c) = 128%nat ->
  (length data < fuel)%nat -> exists m' data' c', unaligned fuel data c = Ok (data', c') /\ m ++ data = m' ++ data' /\
    core sha1_body start m' c' /\ buflen c' = 0%nat /\ length (buf c') = 128%nat /\ (length data' <= 64)%nat.
Proof.
  induction fuel as [|fuel IH]; intros m c data Co B0 Lb H; [lia|]. cbn [unaligned].
  destruct (Nat.ltb_spec 64 (length data)) as [K|K].
  - destruct (blit_ok (buf c) 0 (firstn 64 data) Lb) as (b & Bb & Lbb & Fb); [rewrite firstn_length; lia|].
    rewrite Bb. cbn [obind]. assert (L64 : length (firstn 64 data) = 64%nat) by (rewrite firstn_length; lia).
    rewrite L64 in Fb. cbn [Nat.add firstn app] in Fb. change (firstn 64 b = firstn 64 data) in Fb. rewrite Fb.
    destruct (IH (m ++ firstn 64 data) (process_block sha1_body (firstn 64 data) (with_buf c (buflen c) b)) (skipn 64 data))
      as (m' & data' & c' & E0 & M0 & R0).
    + apply core_block with (j := 1%nat); [apply core_buf; exact Co|lia|lia].
    + exact B0.
    + exact Lbb.
    + rewrite skipn_length. lia.
    + exists m', data', c'. split; [exact E0|]. split; [|exact R0]. rewrite <- M0, <- app_assoc, firstn_skipn. reflexivity.
  - exists m, data, c. repeat (split; [reflexivity || assumption|]). exact K.
Qed.

Lemma last_part start m c data : core sha1_body start m c -> buflen c = 0%nat -> length (buf c) = 128%nat -> (length data <= 64)%nat ->
  exists c', (if (0 <? length data)%nat
    then
      let left := buflen c in
      olet b := blit (buf c) left data in
      let left := (left + length data)%nat in
      if (64 <=? left)%nat
      then let c := process_block sha1_body (firstn 64 b) (with_buf c (buflen c) b) in
           olet b := blit b 0 (sub b 64 (left - 64)) in
           Ok (with_buf c (left - 64) b)
      else Ok (with_buf c left b)
    else Ok c) = Ok c' /\ rep sha1_body start (m ++ data) c'.
Proof.
  intros Co B0 Lb K. destruct (Nat.ltb_spec 0 (length data)) as [P|P].
  - cbn zeta. rewrite B0. destruct (blit_ok (buf c) 0 data Lb) as (b & Bb & Lbb & Fb); [lia|].
    rewrite Bb. cbn [obind]. rewrite !Nat.add_0_l. rewrite Nat.add_0_l in Fb. cbn [firstn app] in Fb.
    destruct (Nat.leb_spec 64 (length data)) as [Q|Q].
    + assert (L64 : length data = 64%nat) by lia. rewrite L64 in *. rewrite Fb. change (64 - 64)%nat with 0%nat.
      replace (sub b 64 0) with (@nil Z) by (unfold sub; reflexivity).
      destruct (blit_ok b 0 [] Lbb) as (b2 & Bb2 & Lb2 & _); [cbn; lia|]. rewrite Bb2. cbn [obind]. eexists. split; [reflexivity|].
      exists (m ++ data), []. split; [symmetry; apply app_nil_r|]. split.
      * apply core_buf. apply core_block with (j := 1%nat); [apply core_buf; exact Co|lia|lia].
      * cbn [with_buf buflen buf]. split; [reflexivity|]. split; [lia|]. split; [exact Lb2|reflexivity].
    + eexists. split; [reflexivity|]. exists m, data. split; [reflexivity|]. split; [apply core_buf; exact Co|].
      cbn [with_buf buflen buf]. split; [reflexivity|]. split; [lia|]. split; [exact Lbb|exact Fb].
  - destruct data; [|cbn in P; lia]. exists c. split; [reflexivity|]. exists m, []. split; [reflexivity|]. split; [exact Co|].
    rewrite B0. split; [reflexivity|]. split; [lia|]. split; [exact Lb|reflexivity].
Qed.

Lemma process_ok odd start m c data : rep sha1_body start m c -> Z.of_nat (length data) < 4294967296 ->
  exists c', sha1_process_bytes odd data c = Ok c' /\ rep sha1_body start (m ++ data) c'.
Proof.
  intros Rp LD. destruct (top_up_ok sha1_body start m c data Rp LD) as (d1 & d2 & c1 & E0 & D0 & Rp1 & Z1).
  unfold sha1_process_bytes. rewrite E0. cbn [obind]. subst data. rewrite app_assoc. rewrite app_length in LD.
  remember (m ++ d1) as m1 eqn:M1. clear M1 E0 Rp.
  destruct (list_eq_dec Z.eq_dec d2 []) as [->|NE].
  - cbn. exists c1. split; [reflexivity|]. rewrite app_nil_r. exact Rp1.
  - destruct (rep_empty sha1_body start m1 c1 Rp1 (Z1 NE)) as (Co & Lb). specialize (Z1 NE).
    destruct (Nat.leb_spec 64 (length d2)) as [H|H].
    + destruct odd.
      * destruct (unaligned_ok start (S (length d2)) m1 c1 d2 Co Z1 Lb ltac:(lia)) as (m' & data' & c' & -> & M0 & Co' & B' & L' & K').
        cbn [obind]. rewrite M0. exact (last_part start m' c' data' Co' B' L' K').
      * cbn [obind]. destruct (whole_le (length d2)) as (W1 & W2 & j & W3).
        assert (Co2 : core sha1_body start (m1 ++ firstn (whole (length d2)) d2) (process_block sha1_body (firstn (whole (length d2)) d2) c1)).
        { apply core_block with (j := j); [exact Co| |]; rewrite firstn_length; lia. }
        replace (m1 ++ d2) with ((m1 ++ firstn (whole (length d2)) d2) ++ skipn (whole (length d2)) d2) by (rewrite <- app_assoc, firstn_skipn; reflexivity).
        apply last_part; [exact Co2|exact Z1|exact Lb|]. rewrite skipn_length. pose proof (Nat.mod_upper_bound (length d2) 64). lia.
    + cbn [obind]. apply last_part; [exact Co|exact Z1|exact Lb|lia].
Qed.

Lemma put_ok start chunks : forall m c, rep sha1_body start m c ->
  Forall (fun d => Z.of_nat (length (snd d)) < 4294967296) chunks ->
  exists c', sha1_put chunks c = Ok c' /\ rep sha1_body start (m ++ concat (map snd chunks)) c'.
Proof.
  induction chunks as [|[o d] r IH]; intros m c Rp Fl; cbn [sha1_put concat map snd].
  - exists c. rewrite app_nil_r. auto.
  - inversion Fl as [|? ? F1 F2]; subst. destruct (process_ok o start m c d Rp F1) as (c' & -> & Rp'). cbn [obind].
    rewrite app_assoc. exact (IH _ _ Rp' F2).
Qed.

(** The end. *)
Lemma blit_keep b i s b' : length b = 128%nat -> blit b i s = Ok b' -> skipn (i + length s) b' = skipn (i + length s) b.
Proof.
  unfold blit. intros L. destruct (Nat.leb_spec (i + length s) 128) as [H|]; [|discriminate]. intros E0. injection E0 as <-.
  rewrite app_assoc, skipn_app. rewrite skipn_all2 by (rewrite app_length, firstn_length; lia).
  replace (i + length s - length (firstn i b ++ s))%nat with 0%nat by (rewrite app_length, firstn_length; lia). reflexivity.
Qed.

Lemma high8 x : high_first 8 x = high_first 4 (x / 2 ^ 32) ++ high_first 4 (x mod 2 ^ 32).
Proof. unfold high_first. rewrite low8, rev_app_distr. reflexivity. Qed.

Lemma hi_range a b : 0 <= b < 4294967296 -> 0 <= Z.lor (u32 (Z.shiftl a 3)) (Z.shiftr b 29) < 2 ^ 32.
Proof.
  intros B0. rewrite Z.shiftl_mul_pow2, Z.shiftr_div_pow2 by lia. unfold u32. change (2 ^ 32) with 4294967296.
  replace ((a * 2 ^ 3) mod 4294967296) with ((a mod 536870912) * 2 ^ 3) by (change (2 ^ 3) with 8; lia).
  rewrite lor_add by (change (2 ^ 29) with 536870912; change (2 ^ 3) with 8; lia). change (2 ^ 29) with 536870912; change (2 ^ 3) with 8. lia.
Qed.

Lemma finish_ok start m c : rep sha1_body start m c ->
  exists k, length (padded (high_first 8) m) = (k * 64)%nat /\
    sha1_finish c = Ok (flat_map (fun w => store32 (swap w)) (each_block sha1_body k start (padded (high_first 8) m))).
Proof.
  intros (m0 & rest & M0 & Co & Lr & Lb & L & F0). unfold sha1_finish.
  assert (CL : counted (count (Z.of_nat (buflen c)) c) (Z.of_nat (length m))).
  { destruct Co as (k & _ & _ & T). rewrite M0, app_length, Nat2Z.inj_add, Lr. apply count_ok; [exact T|lia]. }
  set (size := if (buflen c <? 56)%nat then 16%nat else 32%nat).
  set (pad := ((size - 2) * 4 - buflen c)%nat).
  assert (P : (0 < pad <= 64 /\ buflen c + pad = 4 * (size - 2) /\ (size = 16 \/ size = 32))%nat) by (unfold pad, size; destruct (Nat.ltb_spec (buflen c) 56); lia).
  assert (PZ : Z.of_nat (pad - 1) = (55 - Z.of_nat (length m)) mod 64).
  { destruct Co as (k & Lk & _). rewrite M0, app_length, Lk, Lr. rewrite Nat2Z.inj_add, Nat2Z.inj_mul. unfold pad, size. destruct (Nat.ltb_spec (buflen c) 56); lia. }
  clearbody pad size. destruct P as (P1 & P2 & P3).
  replace (buf (count (Z.of_nat (buflen c)) c)) with (buf c) by reflexivity.
  set (lo := store32 (swap (u32 (Z.shiftl (t0 (count (Z.of_nat (buflen c)) c)) 3)))).
  set (hi := store32 (swap (Z.lor (u32 (Z.shiftl (t1 (count (Z.of_nat (buflen c)) c)) 3)) (Z.shiftr (t0 (count (Z.of_nat (buflen c)) c)) 29)))).
  assert (LH : hi ++ lo = high_first 8 (8 * Z.of_nat (length m) mod 2 ^ 64)).
  { rewrite high8. unfold lo, hi. rewrite store_swap by (apply hi_range; destruct CL; assumption). rewrite store_swap by apply u32_range.
    rewrite (bits_low _ _ CL), (bits_high _ _ CL). reflexivity. }
  assert (Llo : length lo = 4%nat) by reflexivity. assert (Lhi : length hi = 4%nat) by reflexivity. clearbody lo hi.
  destruct (blit_ok (buf c) (4 * (size - 2)) hi L) as (b1 & B1 & L1 & F1); [lia|]. rewrite B1. cbn [obind].
  destruct (blit_ok b1 (4 * (size - 1)) lo L1) as (b2 & B2 & L2 & F2); [lia|]. rewrite B2. cbn [obind].
  rewrite fill_ok by exact P1. cbn [obind]. set (p := 128 :: repeat 0 (pad - 1)).
  assert (Lp : length p = pad) by (unfold p; cbn [length]; rewrite repeat_length; lia).
  destruct (blit_ok b2 (buflen c) p L2) as (b3 & B3 & L3 & F3); [lia|].
  pose proof (blit_keep b2 (buflen c) p b3 L2 B3) as K3. rewrite B3. cbn [obind]. rewrite Lp in *. rewrite Llo in F2. rewrite Lhi in F1.
  replace (4 * (size - 1))%nat with (4 * (size - 2) + 4)%nat in F2 by lia. rewrite F1 in F2. rewrite <- app_assoc, LH in F2.
  replace (4 * (size - 2) + 4 + 4)%nat with (4 * (size - 2) + 8)%nat in F2 by lia. rewrite P2 in *.
  assert (FR : firstn (buflen c) b2 = rest).
  { rewrite (firstn_prefix b2 (buflen c) (4 * (size - 2) + 8) _ F2) by lia. rewrite firstn_app, firstn_firstn.
    rewrite firstn_length, L. replace (buflen c - Nat.min (4 * (size - 2)) 128)%nat with 0%nat by lia. rewrite firstn_O, app_nil_r.
    rewrite Nat.min_l by lia. exact F0. }
  assert (ST : firstn 8 (skipn (4 * (size - 2)) b2) = high_first 8 (8 * Z.of_nat (length m) mod 2 ^ 64)).
  { pose proof (sub_first b2 (4 * (size - 2)) 8 (4 * (size - 2) + 8) ltac:(lia)) as SF. unfold sub in SF. rewrite SF, F2.
    rewrite skipn_app. rewrite skipn_all2 by (rewrite firstn_length; lia).
    rewrite firstn_length, L. replace (4 * (size - 2) - Nat.min (4 * (size - 2)) 128)%nat with 0%nat by lia.
    cbn [skipn app]. apply firstn_all2. unfold high_first. rewrite rev_length, low_first_length. lia. }
  assert (PM : padded (high_first 8) m = m0 ++ firstn (size * 4) b3).
  { replace (size * 4)%nat with (4 * (size - 2) + 8)%nat by lia.
    assert (SP : firstn (4 * (size - 2) + 8) b3 = firstn (4 * (size - 2)) b3 ++ firstn 8 (skipn (4 * (size - 2)) b3)).
    { rewrite <- (firstn_skipn (4 * (size - 2)) b3) at 1. rewrite firstn_app. rewrite firstn_length, L3.
      rewrite firstn_firstn. f_equal; [f_equal; lia|]. f_equal. lia. }
    rewrite SP, F3, K3, ST, FR. unfold padded. rewrite <- PZ, Nat2Z.id. unfold p. rewrite M0, <- !app_assoc. reflexivity. }
  assert (LX : exists j, length (firstn (size * 4) b3) = (j * 64)%nat).
  { rewrite firstn_length, L3. destruct P3; [exists 1%nat|exists 2%nat]; lia. }
  destruct LX as (j & LX).
  set (c0 := count (Z.of_nat (buflen c)) c) in *.
  destruct Co as (k & Lk & Rk & Tk).
  exists (k + j)%nat. rewrite PM. split; [rewrite app_length; lia|]. f_equal.
  unfold process_block. cbn [regs count with_buf].
  rewrite (each_block_app sha1_body k) by exact Lk. rewrite <- Rk.
  replace (length (firstn (size * 4) b3) / 64)%nat with j by (rewrite LX; symmetry; apply Nat.div_mul; lia).
  replace (regs c0) with (regs c) by reflexivity. reflexivity.
Qed.

Lemma padded_bytes m : Forall byte m -> Forall byte (padded (high_first 8) m).
Proof.
  intros Fm. unfold padded. apply Forall_app. split; [exact Fm|]. cbn [app]. constructor; [unfold byte; lia|]. apply Forall_app. split.
  - apply Forall_forall. intros x Hx. apply repeat_spec in Hx. subst x. unfold byte; lia.
  - apply Forall_rev, low_first_bytes.
Qed.

Lemma digest_ok junk chunks : length junk = 128%nat -> Forall (fun d => Z.of_nat (length (snd d)) < 4294967296) chunks ->
  Forall byte (concat (map snd chunks)) ->
  exists d, sha1_digest junk chunks = Ok d /\ sha1_of (concat (map snd chunks)) d.
Proof.
  intros J Fl Fb. unfold sha1_digest.
  destruct (put_ok _ chunks [] (sha1_init junk) (rep_init sha1_body _ junk J) Fl) as (c & -> & Rp). cbn [obind app] in *.
  destruct (finish_ok _ _ _ Rp) as (k & Lk & ->). eexists. split; [reflexivity|].
  set (start := [0x67452301; 0xefcdab89; 0x98badcfe; 0x10325476; 0xc3d2e1f0]) in *.
  destruct (each_block_fold sha1_body k start (padded (high_first 8) (concat (map snd chunks))) Lk) as (bs & I & E0).
  exists bs. split; [exact I|]. change (regs (sha1_init junk)) with start in *. fold start.
  assert (WS : Forall isw start) by (unfold start, isw; repeat constructor; cbn; lia).
  destruct (fold_ok bs start eq_refl WS (in_blocks_length _ _ I) (in_blocks_bytes _ _ I (padded_bytes _ Fb))) as (E1 & W1 & _).
  etransitivity; [exact (f_equal _ E0)|]. rewrite E1. revert W1. generalize (fold_left sha1_block bs start).
  induction 1 as [|w ws Hw Hws IH]; [reflexivity|]. cbn [flat_map]. rewrite store_swap by exact Hw. rewrite IH. reflexivity.
Qed.

Lemma same_digest junk junk' chunks chunks' : length junk = 128%nat -> length junk' = 128%nat ->
  Forall (fun d => Z.of_nat (length (snd d)) < 4294967296) chunks -> Forall (fun d => Z.of_nat (length (snd d)) < 4294967296) chunks' ->
  Forall byte (concat (map snd chunks)) ->
  concat (map snd chunks) = concat (map snd chunks') -> sha1_digest junk chunks = sha1_digest junk' chunks'.
Proof.
  intros J J' Fl Fl' Fb E0. destruct (digest_ok junk chunks J Fl Fb) as (d & -> & M0). rewrite E0 in Fb, M0.
  destruct (digest_ok junk' chunks' J' Fl' Fb) as (d' & -> & M').
  f_equal. exact (hash_unique _ _ _ _ _ _ _ M0 M').
Qed.

Lemma sha1_of_hex m d : sha1_of m d -> length d = 20%nat /\ reads_as (hex_digest d) d.
Proof.
  intros (bs & I & ->). split.
  - assert (G : forall bs s, length s = 5%nat -> length (fold_left sha1_block bs s) = 5%nat).
    { clear. induction bs as [|b bs IH]; intros s L; [exact L|]. cbn [fold_left]. apply IH. apply block_state. exact L. }
    specialize (G bs [0x67452301; 0xefcdab89; 0x98badcfe; 0x10325476; 0xc3d2e1f0] eq_refl).
    revert G. generalize (fold_left sha1_block bs [0x67452301; 0xefcdab89; 0x98badcfe; 0x10325476; 0xc3d2e1f0]).
    intros [|x [|y [|z [|w [|u [|]]]]]] L; try discriminate L. reflexivity.
  - apply hex_ok. generalize (fold_left sha1_block bs [0x67452301; 0xefcdab89; 0x98badcfe; 0x10325476; 0xc3d2e1f0]).
    induction l as [|w l IH]; [constructor|]. cbn [flat_map]. apply Forall_app. split; [apply Forall_rev, low_first_bytes|exact IH].
Qed.
