(** Proofs about the ranges of Random, and about its seeds. *)
From Verif Require Import Base Random RandomSpec RandomProofs.
Import ListNotations.
Local Open Scope Z_scope.

Lemma limit_eq limit o t o' : usable o -> random_next o = Ok (t, o') -> isword t -> 0 <= limit <= 2 ^ 32 - 1 ->
  next_limit limit o = Ok (limit * t / 2 ^ 32, o').
Proof.
  intros U E [A B] L. unfold next_limit. rewrite (usable_size o U), E. cbn [obind fst snd].
  change (2 ^ 62) with 4611686018427387904. change (2 ^ 32) with 4294967296 in *.
  rewrite (proj2 (Z.ltb_ge limit _)) by lia. rewrite (proj2 (Z.leb_gt _ limit)) by lia. cbn [orb].
  change (2 ^ 64) with 18446744073709551616. rewrite (Z.mod_small limit) by lia.
  rewrite (proj2 (Z.ltb_ge _ limit)) by lia.
  assert (P : 0 <= limit * t <= 4294967295 * 4294967295).
  { split; [apply Z.mul_nonneg_nonneg; lia|]. apply Z.mul_le_mono_nonneg; lia. }
  set (p := limit * t) in *. clearbody p. rewrite (Z.mod_small p) by lia.
  rewrite Z.shiftr_div_pow2 by lia. change (2 ^ 32) with 4294967296. unfold u32. rewrite Z.mod_small by lia. reflexivity.
Qed.

Lemma limit_range limit t : isword t -> 1 <= limit -> 0 <= limit * t / 2 ^ 32 < limit.
Proof.
  intros [A B] L. assert (P : 0 < 2 ^ 32) by reflexivity. set (Q := 2 ^ 32) in *. clearbody Q. split.
  - apply Z.div_pos; [|exact P]. apply Z.mul_nonneg_nonneg; lia.
  - apply Z.div_lt_upper_bound; [exact P|]. rewrite (Z.mul_comm Q limit). apply Z.mul_lt_mono_pos_l; lia.
Qed.

Lemma between_range low high o : usable o -> low <= high -> high - low + 1 <= 2 ^ 32 - 1 ->
  exists v o', between low high o = Ok (v, o') /\ low <= v <= high /\ usable o'.
Proof.
  intros U L H. destruct (next_usable o U) as (t & o' & E & T & U'). unfold between.
  rewrite (limit_eq _ o t o' U E T) by lia. cbn [obind fst snd]. eexists _, _. split; [reflexivity|].
  split; [|exact U']. pose proof (limit_range (high - low + 1) t T). lia.
Qed.

Lemma between_wide low high o : usable o -> 2 ^ 32 <= high - low + 1 -> between low high o = Err.
Proof.
  intros U H. unfold between, next_limit. destruct (_ || _) eqn:G; [reflexivity|].
  rewrite (usable_size o U). destruct (next_usable o U) as (t & o' & E & T & U'). rewrite E. cbn [obind].
  change (2 ^ 64) with 18446744073709551616. change (2 ^ 62) with 4611686018427387904 in G.
  change (2 ^ 32) with 4294967296 in H. set (r := high - low + 1) in *. clearbody r.
  apply orb_false_iff in G. destruct G as [_ G]. apply Z.leb_gt in G. rewrite (Z.mod_small r) by lia.
  rewrite (proj2 (Z.ltb_lt _ r)) by lia. reflexivity.
Qed.

Lemma between_empty low high o : usable o -> high < low ->
  if high =? low - 1 then exists o', between low high o = Ok (low, o') /\ usable o' else between low high o = Err.
Proof.
  intros U H. destruct (next_usable o U) as (t & o' & E & T & U'). destruct (Z.eqb_spec high (low - 1)) as [->|D].
  - exists o'. split; [|exact U']. unfold between. replace (low - 1 - low + 1) with 0 by lia.
    rewrite (limit_eq 0 o t o' U E T) by lia. cbn [obind fst snd]. rewrite Z.mul_0_l. reflexivity.
  - unfold between, next_limit. destruct (_ || _) eqn:G; [reflexivity|].
    rewrite (usable_size o U), E. cbn [obind].
    change (2 ^ 64) with 18446744073709551616. change (2 ^ 62) with 4611686018427387904 in G.
    assert (R : high - low + 1 < 0) by lia. set (r := high - low + 1) in *. clearbody r.
    apply orb_false_iff in G. destruct G as [G _]. apply Z.ltb_ge in G.
    replace (r mod 18446744073709551616) with (r + 18446744073709551616).
    + rewrite (proj2 (Z.ltb_lt _ (r + _))) by lia. reflexivity.
    + symmetry. rewrite <- (Z_mod_plus_full r 1). apply Z.mod_small. lia.
Qed.

(** The tops for each value. *)
Definition ceil (x l : Z) : Z := (x + l - 1) / l.

Lemma ceil_le x l t : 0 < l -> ceil x l <= t <-> x <= l * t.
Proof.
  intros L. unfold ceil. pose proof (Z.div_mod (x + l - 1) l ltac:(lia)) as D.
  pose proof (Z.mod_pos_bound (x + l - 1) l L) as M. set (q := (x + l - 1) / l) in *. set (r := (x + l - 1) mod l) in *.
  clearbody q r. split; intros H; [nia|]. destruct (Z.le_gt_cases q t) as [G|G]; [exact G|]. nia.
Qed.

Lemma share limit v Q : 0 < limit -> 0 < Q -> 0 <= v < limit ->
  let a := ceil (v * Q) limit in let b := ceil ((v + 1) * Q) limit in
  0 <= a /\ b <= Q /\ Q / limit <= b - a <= Q / limit + 1 /\ forall t, 0 <= t -> limit * t / Q = v <-> a <= t < b.
Proof.
  intros L P V a b. assert (A : forall t, a <= t <-> v * Q <= limit * t) by (intros t; apply ceil_le; exact L).
  assert (B : forall t, b <= t <-> (v + 1) * Q <= limit * t) by (intros t; apply ceil_le; exact L).
  clearbody a b. repeat split.
  - destruct (Z.le_gt_cases 0 a) as [G|G]; [exact G|]. specialize (proj1 (A (-1))). nia.
  - apply B. nia.
  - pose proof (Z.div_mod Q limit ltac:(lia)) as D. pose proof (Z.mod_pos_bound Q limit L) as M.
    set (q := Q / limit) in *. set (r := Q mod limit) in *. clearbody q r.
    pose proof (proj1 (B b) ltac:(lia)) as B1. assert (a <= b - q); [|lia]. apply A. nia.
  - pose proof (Z.div_mod Q limit ltac:(lia)) as D. pose proof (Z.mod_pos_bound Q limit L) as M.
    set (q := Q / limit) in *. set (r := Q mod limit) in *. clearbody q r.
    pose proof (proj1 (A a) ltac:(lia)) as A1. assert (b <= a + q + 1); [|lia]. apply B. nia.
  - apply A. pose proof (Z.mul_div_le (limit * t) Q P). nia.
  - destruct (Z.lt_ge_cases t b) as [G|G]; [exact G|]. apply B in G.
    pose proof (Z.div_le_lower_bound (limit * t) Q (v + 1) P). nia.
  - intros [H1 H2]. apply A in H1. assert (H3 : limit * t < (v + 1) * Q).
    { destruct (Z.lt_ge_cases (limit * t) ((v + 1) * Q)) as [G|G]; [exact G|]. apply B in G. lia. }
    symmetry. apply (Z.div_unique _ _ _ (limit * t - v * Q)); [left|]; nia.
Qed.

Lemma uniform_ok limit v : 1 <= limit <= 2 ^ 32 - 1 -> 0 <= v < limit -> exists a b,
  0 <= a /\ b <= 2 ^ 32 /\ 2 ^ 32 / limit <= b - a <= 2 ^ 32 / limit + 1 /\
  forall o, usable o -> exists t o' u, next o = Ok ((t, 2 ^ 32 - 1), o') /\ next_limit limit o = Ok (u, o') /\ (u = v <-> a <= t < b).
Proof.
  intros L V. destruct (share limit v (2 ^ 32) ltac:(lia) ltac:(reflexivity) V) as (A & B & C & D).
  eexists _, _. split; [exact A|]. split; [exact B|]. split; [exact C|]. intros o U.
  destruct (next_usable o U) as (t & o' & E & T & U'). exists t, o', (limit * t / 2 ^ 32). split; [|split].
  - unfold next. rewrite (usable_size o U), E. reflexivity.
  - apply limit_eq; assumption || lia.
  - apply D. unfold isword in T. lia.
Qed.

(** Seeds. *)
Lemma seed_length k : forall p, length (seed_words p k) = k.
Proof. induction k as [|k IH]; intros p; cbn [seed_words length]; auto. Qed.

Lemma land_u32 x : Z.land x 0xFFFFFFFF = x mod 2 ^ 32.
Proof. change 0xFFFFFFFF with (Z.ones 32). apply Z.land_ones. lia. Qed.

Lemma seed_isword k : forall p, Forall isword (seed_words p k).
Proof.
  induction k as [|k IH]; intros p; cbn [seed_words]; constructor; [|apply IH].
  rewrite land_u32. apply Z.mod_pos_bound. reflexivity.
Qed.

Lemma seed_fresh s : fresh (seeded s).
Proof.
  unfold fresh, seeded. rewrite app_length, seed_length. split; [|split].
  - rewrite N624_eq. cbn [length]. clear. lia.
  - apply Forall_app. split; [apply seed_isword|]. constructor; [unfold isword; lia|constructor].
  - rewrite app_nth2 by (rewrite seed_length, N624_eq; lia). rewrite seed_length, N624_eq, Nat.sub_diag. reflexivity.
Qed.

Lemma fold_nonzero p : 0 < p < 2 ^ 32 -> 0 < Z.lxor p (Z.shiftr p 30) < 2 ^ 32.
Proof.
  intros P. assert (W : isword p) by (unfold isword; lia).
  pose proof (word_lxor p (Z.shiftr p 30) W (word_shiftr p 30 W ltac:(lia))) as [A B]. split; [|exact B].
  destruct (Z.eq_dec (Z.lxor p (Z.shiftr p 30)) 0) as [E|E]; [|lia]. exfalso.
  apply Z.lxor_eq in E. rewrite Z.shiftr_div_pow2 in E by lia. change (2 ^ 30) with 1073741824 in E.
  change (2 ^ 32) with 4294967296 in P. clear - E P. lia.
Qed.

Lemma mul_nonzero y : 0 < y < 2 ^ 32 -> 0 < (1812433253 * y) mod 2 ^ 32 < 2 ^ 32.
Proof.
  intros Y. pose proof (Z.mod_pos_bound (1812433253 * y) (2 ^ 32) ltac:(reflexivity)) as M. split; [|apply M].
  destruct (Z.eq_dec ((1812433253 * y) mod 2 ^ 32) 0) as [E|E]; [exfalso|lia].
  assert (G : (2520285293 * (1812433253 * y)) mod 2 ^ 32 = 0).
  { rewrite Z.mul_mod, E, Z.mul_0_r by (intro; discriminate). reflexivity. }
  rewrite Z.mul_assoc, <- Z.mul_mod_idemp_l in G by (intro; discriminate).
  replace ((2520285293 * 1812433253) mod 2 ^ 32) with 1 in G by reflexivity.
  rewrite Z.mul_1_l, Z.mod_small in G; lia.
Qed.

Lemma seed_nonzero k : forall p, 0 < p < 2 ^ 32 -> Forall (fun w => 0 < w) (seed_words p k).
Proof.
  induction k as [|k IH]; intros p P; cbn [seed_words]; [constructor|]. rewrite land_u32.
  pose proof (mul_nonzero _ (fold_nonzero p P)) as H. constructor; [apply H|]. apply IH, H.
Qed.

Lemma seed_first s : 0 <= s < 2 ^ 32 -> 0 < Z.lor s 1 < 2 ^ 32.
Proof.
  intros S. assert (W : isword (Z.lor s 1)).
  { apply word_bits; [apply Z.lor_nonneg; lia|]. intros j J.
    rewrite Z.lor_spec, (high_bits s), (high_bits 1); [reflexivity| | | |]; unfold isword; lia. }
  destruct W as [A B]. split; [|exact B]. destruct (Z.eq_dec (Z.lor s 1) 0) as [E|E]; [|lia].
  apply Z.lor_eq_0_iff in E. destruct E; discriminate.
Qed.

Lemma seed_ok s : 0 <= s < 2 ^ 32 -> fresh (seeded s) /\ forall i, (i < Z.to_nat 624)%nat -> 0 < nth i (seeded s) 0.
Proof.
  intros S. split; [apply seed_fresh|]. intros i I. unfold seeded.
  pose proof (seed_nonzero N624 _ (seed_first s S)) as F. rewrite app_nth1 by (rewrite seed_length; exact I).
  rewrite Forall_forall in F. apply F, nth_In. rewrite seed_length. exact I.
Qed.

Lemma seed_twin s : seeded (2 * s) = seeded (2 * s + 1).
Proof.
  unfold seeded. f_equal. f_equal. apply Z.bits_inj'. intros j J. rewrite !Z.lor_spec.
  destruct (Z.eq_dec j 0) as [->|D]; [rewrite !orb_true_r; reflexivity|]. f_equal.
  replace j with (Z.succ (j - 1)) by lia. rewrite Z.testbit_even_succ, Z.testbit_odd_succ by lia. reflexivity.
Qed.

(** All words zero. *)
Definition zeroed (o : list Z) : Prop := usable o /\ forall j, (j < N624)%nat -> nth j o 0 = 0.

Lemma zero_loop n m l k : (k <= n)%nat -> Forall isword l -> (forall j, (j < n)%nat -> nth j l 0 = 0) ->
  forall j, (j < n)%nat -> nth j (gen_loop n m l k) 0 = 0.
Proof.
  intros K F H. induction k as [|k IH]; [exact H|]. intros j J. cbn [gen_loop].
  rewrite step_eq by (apply loop_words; exact F).
  assert (IH' := IH ltac:(lia)). rewrite (IH' k) by lia. rewrite !IH' by (apply Nat.mod_upper_bound; lia).
  destruct (Nat.eq_dec k j) as [->|D].
  - destruct (Nat.lt_ge_cases j (length l)) as [B|B].
    + rewrite nth_upd_same by (rewrite loop_length; exact B). reflexivity.
    + rewrite nth_overflow by (rewrite upd_length, loop_length; exact B). reflexivity.
  - rewrite nth_upd_other by exact D. apply IH', J.
Qed.

Lemma ok_pair (a c : Z) (b d : list Z) : Ok (a, b) = Ok (c, d) -> a = c /\ b = d.
Proof. intros H. injection H as -> ->. split; reflexivity. Qed.

Lemma zero_next o : zeroed o -> exists o', random_next o = Ok (0, o') /\ zeroed o'.
Proof.
  intros [U H]. destruct (next_usable o U) as (t & o' & E & T & U').
  destruct (usable_index o U) as (i & I & B & _). destruct U as (L & F & _).
  assert (G : forall j, (j < N624)%nat -> nth j (turned o i) 0 = 0).
  { unfold turned. destruct (i =? 0)%nat; [|exact H]. unfold generate. apply zero_loop; [apply le_n|exact F|exact H]. }
  rewrite (next_eq o i L I B) in E. rewrite (G i B) in E. change (tempered 0) with 0 in E.
  exists o'. split; [|split; [exact U'|]].
  - rewrite (next_eq o i L I B), (G i B). change (tempered 0) with 0. apply ok_pair in E. rewrite (proj2 E). reflexivity.
  - intros j J. apply ok_pair in E. rewrite <- (proj2 E). rewrite nth_upd_other by lia. apply G, J.
Qed.

Lemma zero_nexts k : forall o, zeroed o -> nexts k o = Ok (repeat 0 k).
Proof.
  induction k as [|k IH]; intros o H; [reflexivity|]. cbn [nexts repeat].
  destruct (zero_next o H) as (o' & E & H'). unfold next. rewrite (usable_size o (proj1 H)), E.
  cbn [obind fst snd]. rewrite (IH o' H'). reflexivity.
Qed.

Lemma zero_betweens low high k : low <= high -> high - low + 1 <= 2 ^ 32 - 1 ->
  forall o, zeroed o -> betweens k low high o = Ok (repeat low k).
Proof.
  intros L M. induction k as [|k IH]; intros o H; [reflexivity|]. cbn [betweens repeat].
  destruct (zero_next o H) as (o' & E & H'). unfold between.
  rewrite (limit_eq _ o 0 o' (proj1 H) E) by (unfold isword; lia). cbn [obind fst snd].
  rewrite (IH o' H'), Z.mul_0_r. reflexivity.
Qed.

Lemma fresh_usable o : fresh o -> usable o.
Proof. intros (L & F & I). repeat split; [exact L|exact F|]. rewrite I. reflexivity. Qed.

Lemma zero_words k : seed_words (-1) k = repeat 0 k.
Proof.
  assert (Z : forall j, seed_words 0 j = repeat 0 j).
  { induction j as [|j IH]; [reflexivity|]. cbn [seed_words repeat]. change (Z.land _ _) with 0. rewrite IH. reflexivity. }
  destruct k as [|k]; [reflexivity|]. cbn [seed_words repeat]. change (Z.land _ _) with 0. rewrite Z. reflexivity.
Qed.

Lemma zero_seed s : s = -1 \/ s = -2 -> zeroed (seeded s).
Proof.
  intros S. split; [apply fresh_usable, seed_fresh|]. intros j J.
  assert (E : seeded s = repeat 0 N624 ++ [0]).
  { rewrite <- zero_words. destruct S as [-> | ->]; reflexivity. }
  rewrite E. rewrite app_nth1 by (rewrite repeat_length; exact J). apply nth_repeat.
Qed.

Lemma seed_bad s : s = -1 \/ s = -2 -> forall k, nexts k (seeded s) = Ok (repeat 0 k) /\
  forall low high, low <= high -> high - low + 1 <= 2 ^ 32 - 1 -> betweens k low high (seeded s) = Ok (repeat low k).
Proof.
  intros S k. split; [apply zero_nexts, zero_seed, S|]. intros low high L M.
  apply zero_betweens; [exact L|exact M|]. apply zero_seed, S.
Qed.

Definition top_at (s : Z) (k : nat) : Z := match nexts (S k) (seeded s) with Ok l => nth k l 0 | _ => -1 end.

Lemma one_bad : exists s k l, 0 <= s < 2 ^ 32 /\ nexts (S k) (seeded s) = Ok l /\ nth k l 0 = 2 ^ 32 - 1.
Proof.
  assert (T : top_at 72414183 103 = 2 ^ 32 - 1) by (vm_compute; reflexivity).
  destruct (sequence_ok _ (seed_fresh 72414183)) as (x & _ & _ & H). destruct (H 104%nat) as (l & E & _).
  exists 72414183, 103%nat, l. split; [lia|]. split; [exact E|]. unfold top_at in T. rewrite E in T. exact T.
Qed.

Lemma index_bad : exists s v o, at_put (seeded s) 625 v = Ok o /\ next o = UB.
Proof. exists 1, 700, (upd (seeded 1) (Z.to_nat 624) 700). split; vm_compute; reflexivity. Qed.

Lemma wide_bad : exists low high o, usable o /\ low <= high /\ between low high o = Err.
Proof.
  assert (U : usable (seeded 1)) by (apply fresh_usable, seed_fresh).
  exists 0, (2 ^ 32 - 1), (seeded 1). split; [exact U|]. split; [lia|]. apply between_wide; [exact U|lia].
Qed.

Lemma empty_bad : exists low high o v o', usable o /\ high < low /\ between low high o = Ok (v, o').
Proof.
  assert (U : usable (seeded 1)) by (apply fresh_usable, seed_fresh).
  destruct (between_empty 5 4 (seeded 1) U ltac:(lia)) as (o' & E & _).
  exists 5, 4, (seeded 1), 5, o'. split; [exact U|]. split; [lia|exact E].
Qed.

Lemma zero_bad : exists s, forall k, nexts k (seeded s) = Ok (repeat 0 k).
Proof. exists (-1). intros k. apply (seed_bad (-1)). left. reflexivity. Qed.

Lemma twin_bad : exists s s', s <> s' /\ seeded s = seeded s'.
Proof. exists (2 * 1), (2 * 1 + 1). split; [lia|]. apply seed_twin. Qed.
