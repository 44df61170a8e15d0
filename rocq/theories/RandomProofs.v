(** Proofs about Random. *)
From Verif Require Import Base Random RandomSpec DigestProofs.
Import ListNotations.
Local Open Scope Z_scope.

(** Lists of words. *)
Lemma upd_length l : forall i v, length (upd l i v) = length l.
Proof. induction l as [|x l IH]; intros [|i] v; cbn [upd length]; auto. Qed.

Lemma nth_upd_same l : forall i v d, (i < length l)%nat -> nth i (upd l i v) d = v.
Proof.
  induction l as [|x l IH]; intros [|i] v d H; cbn [upd length nth] in *; try lia; auto. apply IH. lia.
Qed.

Lemma nth_upd_other l : forall i j v d, i <> j -> nth j (upd l i v) d = nth j l d.
Proof.
  induction l as [|x l IH]; intros [|i] [|j] v d H; cbn [upd nth]; auto; try lia.
Qed.

Lemma Forall_upd (P : Z -> Prop) l : forall i v, Forall P l -> P v -> Forall P (upd l i v).
Proof.
  induction l as [|x l IH]; intros [|i] v F H; cbn [upd]; auto; inversion F; constructor; auto.
Qed.

Lemma nth_word o i : Forall isword o -> isword (nth i o 0).
Proof.
  intros F. destruct (nth_in_or_default i o 0) as [H| ->].
  - rewrite Forall_forall in F. apply F, H.
  - unfold isword. lia.
Qed.

(** Bits. *)
Lemma high_bits u j : isword u -> 32 <= j -> Z.testbit u j = false.
Proof.
  intros [A B] J. destruct (Z.eq_dec u 0) as [->|Z0]; [apply Z.bits_0|].
  apply Z.bits_above_log2; [lia|]. assert (Z.log2 u < 32) by (apply Z.log2_lt_pow2; lia). lia.
Qed.

Lemma word_bits u : 0 <= u -> (forall j, 32 <= j -> Z.testbit u j = false) -> isword u.
Proof.
  intros A H. split; [exact A|]. destruct (Z.eq_dec u 0) as [->|Z0]; [reflexivity|].
  apply Z.log2_lt_pow2; [lia|]. destruct (Z.lt_ge_cases (Z.log2 u) 32) as [L|L]; [exact L|].
  specialize (H _ L). rewrite Z.bit_log2 in H by lia. discriminate.
Qed.

Lemma word_lxor a b : isword a -> isword b -> isword (Z.lxor a b).
Proof.
  intros A B. apply word_bits; [apply Z.lxor_nonneg; unfold isword in *; lia|].
  intros j J. rewrite Z.lxor_spec, (high_bits a), (high_bits b) by assumption. reflexivity.
Qed.

Lemma word_land a b : isword a -> 0 <= b -> isword (Z.land a b).
Proof.
  intros A B. apply word_bits; [apply Z.land_nonneg; lia|].
  intros j J. rewrite Z.land_spec, (high_bits a) by assumption. reflexivity.
Qed.

Lemma word_shiftr a k : isword a -> 0 <= k -> isword (Z.shiftr a k).
Proof.
  intros [A B] K. rewrite Z.shiftr_div_pow2 by exact K. assert (0 < 2 ^ k) by (apply Z.pow_pos_nonneg; lia).
  split; [apply Z.div_pos; lia|]. apply Z.le_lt_trans with a; [|exact B]. apply Z.div_le_upper_bound; [lia|].
  rewrite <- (Z.mul_1_l a) at 1. apply Z.mul_le_mono_nonneg_r; lia.
Qed.

Lemma word_u32 x : isword (u32 x).
Proof. unfold isword, u32. change (2 ^ 32) with 4294967296. apply Z.mod_pos_bound. lia. Qed.

Lemma land_top u : isword u -> Z.land u 2147483648 = u / 2 ^ 31 * 2 ^ 31.
Proof.
  intros W. change 2147483648 with (2 ^ 31). apply Z.bits_inj'. intros j J.
  rewrite Z.land_spec, Z.pow2_bits_eqb by lia. destruct (Z.lt_ge_cases j 31) as [L|L].
  - rewrite Z.mul_pow2_bits_low by lia. rewrite (proj2 (Z.eqb_neq 31 j)) by lia. apply andb_false_r.
  - rewrite Z.mul_pow2_bits by lia. rewrite Z.div_pow2_bits by lia. replace (j - 31 + 31) with j by lia.
    destruct (Z.eq_dec j 31) as [->|D]; [rewrite Z.eqb_refl; apply andb_true_r|].
    rewrite (high_bits u) by (assumption || lia). reflexivity.
Qed.

Lemma joined_ok u v : isword u -> Z.lor (Z.land u 0x80000000) (Z.land v 0x7fffffff) = joined u v.
Proof.
  intros U. change 0x80000000 with 2147483648. rewrite land_top by exact U.
  change 0x7fffffff with (Z.ones 31). rewrite Z.land_ones by lia. unfold joined. apply lor_add; [lia|].
  apply Z.mod_pos_bound. reflexivity.
Qed.

Lemma joined_word u v : isword u -> isword (joined u v).
Proof.
  intros U. rewrite <- joined_ok by exact U. apply word_bits.
  - apply Z.lor_nonneg. split; apply Z.land_nonneg; right; lia.
  - intros j J. rewrite Z.lor_spec, !Z.land_spec, (high_bits u) by assumption.
    rewrite (high_bits 0x7fffffff); [rewrite andb_false_r; reflexivity|unfold isword; lia|exact J].
Qed.

Lemma land_one y : (Z.land y 1 =? 0) = negb (Z.odd y).
Proof.
  change 1 with (Z.ones 1). rewrite Z.land_ones by lia. change (2 ^ 1) with 2.
  rewrite Zmod_odd. destruct (Z.odd y); reflexivity.
Qed.

Lemma twist_ok w y : (if Z.land y 1 =? 0 then Z.lxor w (Z.shiftr y 1)
    else Z.lxor (Z.lxor w (Z.shiftr y 1)) 0x9908b0df) = Z.lxor w (times_A y).
Proof.
  rewrite land_one. unfold times_A. rewrite Z.shiftr_div_pow2 by lia. change (2 ^ 1) with 2.
  destruct (Z.odd y); cbn [negb]; [apply Z.lxor_assoc|reflexivity].
Qed.

Lemma times_A_word y : isword y -> isword (times_A y).
Proof.
  intros Y. assert (H : isword (y / 2)).
  { change 2 with (2 ^ 1). rewrite <- Z.shiftr_div_pow2 by lia. apply word_shiftr; [exact Y|lia]. }
  unfold times_A. destruct (Z.odd y); [|exact H]. apply word_lxor; [exact H|unfold isword; lia].
Qed.

(** The loop, for any [n] and [m]. *)
Lemma step_eq n m l i : Forall isword l -> gen_step n m l i =
  upd l i (Z.lxor (nth ((i + m) mod n) l 0) (times_A (joined (nth i l 0) (nth ((i + 1) mod n) l 0)))).
Proof.
  intros F. unfold gen_step. cbv zeta. rewrite joined_ok by (apply nth_word; exact F). f_equal. apply twist_ok.
Qed.

Lemma loop_length n m l k : length (gen_loop n m l k) = length l.
Proof. induction k as [|k IH]; [reflexivity|]. cbn [gen_loop]. unfold gen_step. rewrite upd_length. exact IH. Qed.

Lemma loop_words n m l k : Forall isword l -> Forall isword (gen_loop n m l k).
Proof.
  intros F. induction k as [|k IH]; [exact F|]. cbn [gen_loop]. rewrite step_eq by exact IH.
  apply Forall_upd; [exact IH|]. apply word_lxor; [apply nth_word; exact IH|].
  apply times_A_word, joined_word, nth_word. exact IH.
Qed.

Lemma loop_after n m l k j : (k <= j)%nat -> nth j (gen_loop n m l k) 0 = nth j l 0.
Proof.
  induction k as [|k IH]; intros H; [reflexivity|]. cbn [gen_loop]. unfold gen_step.
  rewrite nth_upd_other by lia. apply IH. lia.
Qed.

Lemma loop_before n m l k j : (j < k)%nat -> nth j (gen_loop n m l k) 0 = nth j (gen_loop n m l (S j)) 0.
Proof.
  induction k as [|k IH]; intros H; [lia|]. destruct (Nat.eq_dec j k) as [->|D]; [reflexivity|].
  rewrite <- IH by lia. cbn [gen_loop]. unfold gen_step at 1. apply nth_upd_other. lia.
Qed.

(** A word that a turn of the loop reads: from this round if it is already there. *)
Lemma loop_read n m l i d : (1 <= d < n)%nat -> (i < n)%nat ->
  nth ((i + d) mod n) (gen_loop n m l i) 0 =
  if (i + d <? n)%nat then nth (i + d) l 0 else nth (i + d - n) (gen_loop n m l n) 0.
Proof.
  intros D I. destruct (Nat.ltb_spec (i + d) n) as [H|H].
  - rewrite Nat.mod_small by exact H. apply loop_after. lia.
  - replace ((i + d) mod n)%nat with (i + d - n)%nat.
    + rewrite loop_before by lia. symmetry. apply loop_before. lia.
    + symmetry. replace (i + d)%nat with (i + d - n + 1 * n)%nat at 1 by lia.
      rewrite Nat.mod_add by lia. apply Nat.mod_small. lia.
Qed.

Lemma loop_spec n m l i : (1 < n)%nat -> (1 <= m < n)%nat -> (i < n)%nat -> (n <= length l)%nat -> Forall isword l ->
  let g := gen_loop n m l n in
  nth i g 0 = Z.lxor (if (i + m <? n)%nat then nth (i + m) l 0 else nth (i + m - n) g 0)
    (times_A (joined (nth i l 0) (if (i + 1 <? n)%nat then nth (i + 1) l 0 else nth (i + 1 - n) g 0))).
Proof.
  intros N M I L F g. unfold g at 1. rewrite loop_before by exact I. cbn [gen_loop].
  rewrite step_eq by (apply loop_words; exact F). rewrite nth_upd_same by (rewrite loop_length; lia).
  rewrite !loop_read by lia. rewrite (loop_after n m l i i) by lia. reflexivity.
Qed.

(** All rounds, one after another. *)
Section rounds.
  Context (n m : nat) (o : list Z) (Hn : (1 < n)%nat) (Hm : (1 <= m < n)%nat) (Ho : (n < length o)%nat) (Hw : Forall isword o).

  Fixpoint rounds (b : nat) : list Z := match b with O => o | S b => gen_loop n m (rounds b) n end.

  Definition word_at (k : nat) : Z := nth (k mod n) (rounds (k / n)) 0.

  Lemma rounds_length b : length (rounds b) = length o.
  Proof. induction b as [|b IH]; [reflexivity|]. cbn [rounds]. rewrite loop_length. exact IH. Qed.

  Lemma rounds_words b : Forall isword (rounds b).
  Proof. induction b as [|b IH]; [exact Hw|]. cbn [rounds]. apply loop_words. exact IH. Qed.

  Lemma word_at_eq b i : (i < n)%nat -> word_at (b * n + i) = nth i (rounds b) 0.
  Proof.
    clear Hm Ho Hw. intros I. unfold word_at. f_equal.
    - rewrite Nat.add_comm, Nat.mod_add by lia. apply Nat.mod_small. exact I.
    - f_equal. rewrite Nat.add_comm, Nat.div_add by lia. rewrite Nat.div_small by exact I. reflexivity.
  Qed.

  Lemma word_at_later b i d : (i < n)%nat -> (d <= n)%nat -> word_at (b * n + i + d) =
    if (i + d <? n)%nat then nth (i + d) (rounds b) 0 else nth (i + d - n) (rounds (S b)) 0.
  Proof.
    clear Hm Ho Hw. intros I D. destruct (Nat.ltb_spec (i + d) n) as [H|H].
    - rewrite <- Nat.add_assoc. apply word_at_eq. exact H.
    - replace (b * n + i + d)%nat with (S b * n + (i + d - n))%nat by (cbn [Nat.mul]; lia). apply word_at_eq. lia.
  Qed.

  Lemma rounds_twist k : word_at (k + n) = Z.lxor (word_at (k + m)) (times_A (joined (word_at k) (word_at (S k)))).
  Proof.
    pose proof (Nat.div_mod_eq k n) as K. pose proof (Nat.mod_upper_bound k n) as U.
    set (b := (k / n)%nat) in *. set (i := (k mod n)%nat) in *. clearbody b i. rewrite Nat.mul_comm in K. subst k.
    assert (I : (i < n)%nat) by (apply U; lia). clear U.
    replace (S (b * n + i)) with (b * n + i + 1)%nat by lia. rewrite !word_at_later by lia. rewrite (word_at_eq b i I).
    replace (i + n <? n)%nat with false by (symmetry; apply Nat.ltb_ge; lia).
    replace (i + n - n)%nat with i by lia. cbn [rounds].
    rewrite (loop_spec n m (rounds b) i Hn Hm I); [reflexivity| |apply rounds_words]. rewrite rounds_length. lia.
  Qed.
End rounds.

Lemma rounds_S n m o b : rounds n m o (S b) = gen_loop n m (rounds n m o b) n.
Proof. reflexivity. Qed.

(** The words that are read. *)
Lemma masked a k b : 0 <= k -> isword b -> Z.land (u32 (Z.shiftl a k)) b = Z.land (a * 2 ^ k) b.
Proof.
  intros K B. rewrite Z.shiftl_mul_pow2 by exact K. unfold u32. change 4294967296 with (2 ^ 32).
  rewrite <- Z.land_ones by lia. rewrite <- Z.land_assoc. f_equal. rewrite Z.land_comm, Z.land_ones by lia.
  apply Z.mod_small. exact B.
Qed.

Lemma tempered_ok y : scrambled y (tempered y).
Proof.
  unfold scrambled, tempered. cbv zeta. rewrite !Z.shiftr_div_pow2 by lia.
  rewrite !masked by (lia || (unfold isword; lia)). eexists _, _, _. repeat split.
Qed.

Lemma tempered_word y : isword y -> isword (tempered y).
Proof.
  intros Y. unfold tempered. cbv zeta.
  assert (A : isword (Z.lxor y (Z.shiftr y 11))) by (apply word_lxor; [|apply word_shiftr]; assumption || lia).
  set (a := Z.lxor y (Z.shiftr y 11)) in *. clearbody a.
  assert (B : isword (Z.lxor a (Z.land (u32 (Z.shiftl a 7)) 0x9d2c5680))).
  { apply word_lxor; [exact A|]. apply word_land; [apply word_u32|lia]. }
  set (b := Z.lxor a _) in *. clearbody b.
  assert (C : isword (Z.lxor b (Z.land (u32 (Z.shiftl b 15)) 0xefc60000))).
  { apply word_lxor; [exact B|]. apply word_land; [apply word_u32|lia]. }
  apply word_lxor; [exact C|]. apply word_shiftr; [exact C|lia].
Qed.

Lemma scrambled_fun y a b : scrambled y a -> scrambled y b -> a = b.
Proof. intros (p & q & r & -> & -> & -> & ->) (p' & q' & r' & -> & -> & -> & ->). reflexivity. Qed.

(** One step from any usable generator. *)
Lemma N624_eq : N624 = Z.to_nat 624. Proof. reflexivity. Qed.

Lemma usable_index o : usable o -> exists i, nth N624 o 0 = Z.of_nat i /\ (i < N624)%nat /\ to_int (Z.of_nat i) = Z.of_nat i.
Proof.
  intros (L & F & I). rewrite (nth_indep o 1 0) in I by (rewrite L; lia). rewrite N624_eq.
  pose proof (nth_word o (Z.to_nat 624) F) as [A B]. exists (Z.to_nat (nth (Z.to_nat 624) o 0)).
  rewrite Z2Nat.id by exact A. repeat split; [lia|]. unfold to_int.
  rewrite (proj2 (Z.ltb_lt _ _)) by lia. reflexivity.
Qed.

(** The object after the round that [i] begins, if it does. *)
Definition turned (o : list Z) (i : nat) : list Z := if (i =? 0)%nat then generate o else o.

Lemma turned_length o i : length (turned o i) = length o.
Proof. unfold turned, generate. destruct (i =? 0)%nat; [apply loop_length|reflexivity]. Qed.

Lemma turned_words o i : Forall isword o -> Forall isword (turned o i).
Proof. intros F. unfold turned, generate. destruct (i =? 0)%nat; [apply loop_words|]; exact F. Qed.

Lemma next_eq o i : length o = Z.to_nat 625 -> nth N624 o 0 = Z.of_nat i -> (i < N624)%nat ->
  random_next o = Ok (tempered (nth i (turned o i) 0), upd (turned o i) N624 (Z.of_nat ((i + 1) mod N624))).
Proof.
  intros L I B. unfold random_next. rewrite I. rewrite N624_eq in B.
  assert (T : to_int (Z.of_nat i) = Z.of_nat i) by (unfold to_int; rewrite (proj2 (Z.ltb_lt _ _)) by lia; reflexivity).
  rewrite T. replace (Z.of_nat i =? 0) with (i =? 0)%nat by (destruct i; reflexivity). fold (turned o i).
  rewrite turned_length, L. rewrite (proj2 (Z.ltb_ge _ _)) by lia. rewrite (proj2 (Z.leb_gt _ _)) by lia. cbn [orb].
  rewrite Nat2Z.id. f_equal. f_equal. f_equal. rewrite Nat2Z.inj_mod, Nat2Z.inj_add, N624_eq.
  rewrite Z2Nat.id by lia. reflexivity.
Qed.

Lemma next_usable o : usable o -> exists t o', random_next o = Ok (t, o') /\ isword t /\ usable o'.
Proof.
  intros U. destruct (usable_index o U) as (i & I & B & _). destruct U as (L & F & _).
  rewrite (next_eq o i L I B). eexists _, _. split; [reflexivity|]. split.
  - apply tempered_word, nth_word, turned_words, F.
  - pose proof (Nat.mod_upper_bound (i + 1) N624). assert ((i + 1) mod N624 < N624)%nat by (apply H; rewrite N624_eq; lia).
    split; [rewrite upd_length, turned_length; exact L|]. split.
    + apply Forall_upd; [apply turned_words, F|]. unfold isword. rewrite N624_eq in *. lia.
    + rewrite N624_eq in *. rewrite nth_upd_same by (rewrite turned_length, L; lia). lia.
Qed.

Lemma usable_size o : usable o -> (length o <=? N624)%nat = false.
Proof. intros (L & _). rewrite L, N624_eq. apply Nat.leb_gt. lia. Qed.

Lemma next_numerator o : usable o -> exists t o', next o = Ok ((t, 2 ^ 32 - 1), o') /\ 0 <= t <= 2 ^ 32 - 1 /\ usable o'.
Proof.
  intros U. destruct (next_usable o U) as (t & o' & E & [A B] & U'). unfold next.
  rewrite (usable_size o U), E. cbn [obind fst snd]. eexists _, _. split; [reflexivity|]. split; [lia|exact U'].
Qed.

(** The sequence. *)
Definition xs (o : list Z) : nat -> Z := word_at N624 M397 o.

Lemma xs_words o b i : (i < N624)%nat -> xs o (b * N624 + i) = nth i (rounds N624 M397 o b) 0.
Proof. intros I. apply word_at_eq; [rewrite N624_eq; lia|exact I]. Qed.

(** The loop does not read the index word. *)
Lemma step_ext n m l l' i : (0 < n)%nat -> (i < n)%nat -> (forall j, (j < n)%nat -> nth j l 0 = nth j l' 0) ->
  length l = length l' ->
  forall j, (j < n)%nat -> nth j (gen_step n m l i) 0 = nth j (gen_step n m l' i) 0.
Proof.
  intros N I H L j J. unfold gen_step. cbv zeta.
  rewrite (H i I), (H ((i + 1) mod n)%nat), (H ((i + m) mod n)%nat) by (apply Nat.mod_upper_bound; lia).
  destruct (Nat.eq_dec i j) as [->|D].
  - destruct (Nat.lt_ge_cases j (length l)) as [B|B].
    + rewrite !nth_upd_same by lia. reflexivity.
    + rewrite !nth_overflow by (rewrite upd_length; lia). reflexivity.
  - rewrite !nth_upd_other by exact D. apply H, J.
Qed.

Lemma loop_ext n m l l' k : (0 < n)%nat -> (k <= n)%nat -> (forall j, (j < n)%nat -> nth j l 0 = nth j l' 0) ->
  length l = length l' ->
  forall j, (j < n)%nat -> nth j (gen_loop n m l k) 0 = nth j (gen_loop n m l' k) 0.
Proof.
  intros N K H L. induction k as [|k IH]; [exact H|]. cbn [gen_loop]. apply step_ext; [exact N|lia| |].
  - apply IH. lia.
  - rewrite !loop_length. exact L.
Qed.

(** The generator [o] stands at the [k]-th word of the sequence of [o0]. *)
Definition stands (o0 o : list Z) (k : nat) : Prop :=
  length o = Z.to_nat 625 /\ nth N624 o 0 = Z.of_nat (k mod N624) /\
  forall j, (j < N624)%nat -> nth j (turned o (k mod N624)) 0 = nth j (rounds N624 M397 o0 (S (k / N624))) 0.

Lemma Npos : (0 < N624)%nat. Proof. rewrite N624_eq. lia. Qed.

Lemma stands_first o : length o = Z.to_nat 625 -> nth N624 o 0 = 0 -> stands o o 0.
Proof.
  intros L I. split; [exact L|]. rewrite Nat.mod_0_l by (pose proof Npos; lia).
  split; [exact I|]. intros j J. rewrite Nat.div_0_l by (pose proof Npos; lia). unfold turned, generate. cbn [Nat.eqb rounds]. reflexivity.
Qed.

Lemma stands_next o0 o k : length o0 = Z.to_nat 625 -> stands o0 o k ->
  exists o', random_next o = Ok (tempered (xs o0 (N624 + k)), o') /\ stands o0 o' (S k).
Proof.
  intros L0 (L & I & H). pose proof Npos as NP. pose proof (Nat.mod_upper_bound k N624 ltac:(lia)) as B.
  rewrite (next_eq o _ L I B). rewrite (H _ B). rewrite <- xs_words by exact B. eexists. split.
  - f_equal. f_equal. f_equal. f_equal. rewrite (Nat.div_mod_eq k N624) at 3. lia.
  - split; [rewrite upd_length, turned_length; exact L|].
    assert (K : ((k mod N624 + 1) mod N624 = S k mod N624)%nat).
    { rewrite Nat.add_mod_idemp_l by lia. f_equal. lia. }
    rewrite K. rewrite nth_upd_same by (rewrite turned_length, L, N624_eq; lia). split; [reflexivity|].
    set (t := turned o (k mod N624)) in *. assert (LT : length t = Z.to_nat 625) by (unfold t; rewrite turned_length; exact L).
    clearbody t. clear I L. set (v := Z.of_nat _). clearbody v.
    assert (HU : forall j, (j < N624)%nat -> nth j (upd t N624 v) 0 = nth j (rounds N624 M397 o0 (S (k / N624))) 0).
    { intros j J. rewrite nth_upd_other by lia. apply H, J. }
    pose proof (Nat.div_mod_eq k N624) as D. unfold turned.
    destruct (Nat.lt_ge_cases (k mod N624 + 1) N624) as [C|C].
    + assert (Q : (S k / N624 = k / N624 /\ S k mod N624 = k mod N624 + 1)%nat).
      { assert (E : S k = ((k mod N624 + 1) + (k / N624) * N624)%nat) by lia. split.
        - rewrite E, Nat.div_add, Nat.div_small by lia. lia.
        - rewrite E at 1. rewrite Nat.mod_add by lia. apply Nat.mod_small. exact C. }
      destruct Q as [-> ->]. rewrite (proj2 (Nat.eqb_neq _ 0)) by lia. exact HU.
    + assert (E : S k = (0 + S (k / N624) * N624)%nat) by (cbn [Nat.mul]; lia).
      assert (Q : (S k / N624 = S (k / N624) /\ S k mod N624 = 0)%nat).
      { split.
        - rewrite E at 1. rewrite Nat.div_add, Nat.div_0_l by lia. lia.
        - rewrite E at 1. rewrite Nat.mod_add by lia. apply Nat.mod_0_l. lia. }
      destruct Q as [-> ->]. cbn [Nat.eqb]. unfold generate. intros j J.
      rewrite (rounds_S N624 M397 o0 (S (k / N624))).
      apply loop_ext; [exact NP|apply le_n|exact HU| |exact J].
      rewrite upd_length, LT, rounds_length, L0. reflexivity.
Qed.

Lemma stands_nexts o0 k : length o0 = Z.to_nat 625 -> forall o c, stands o0 o c ->
  nexts k o = Ok (map (fun j => tempered (xs o0 (N624 + j))) (seq c k)).
Proof.
  intros L0. induction k as [|k IH]; intros o c H; [reflexivity|]. cbn [nexts seq map].
  destruct (stands_next o0 o c L0 H) as (o' & E & H'). unfold next.
  assert (LE : (length o <=? N624)%nat = false).
  { pose proof (proj1 H) as L. rewrite L, N624_eq. apply Nat.leb_gt. clear. lia. }
  rewrite LE, E. cbn [obind fst snd]. rewrite (IH o' (S c) H'). reflexivity.
Qed.

Lemma sequence_ok o : fresh o -> exists x, (forall i, (i < Z.to_nat 624)%nat -> x i = nth i o 0) /\ twister x /\
  forall k, exists l, nexts k o = Ok l /\ length l = k /\ forall j, (j < k)%nat -> scrambled (x (Z.to_nat 624 + j)%nat) (nth j l 0).
Proof.
  intros (L & F & I). rewrite (nth_indep o 1 0) in I by (rewrite L; lia). exists (xs o). repeat split.
  - intros i B. exact (xs_words o 0 i B).
  - intros k. apply (rounds_twist N624 M397 o); [rewrite N624_eq; lia|unfold M397; rewrite N624_eq; lia|rewrite L, N624_eq; lia|exact F].
  - intros k. eexists. split; [apply (stands_nexts o k L o 0), stands_first; assumption|].
    split; [rewrite map_length, seq_length; reflexivity|]. intros j J.
    rewrite (nth_indep _ 0 (tempered (xs o (N624 + 0)))) by (rewrite map_length, seq_length; exact J).
    rewrite (map_nth (fun j => tempered (xs o (N624 + j)))). rewrite seq_nth by exact J. apply tempered_ok.
Qed.
