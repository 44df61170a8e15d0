(** C138: Random is the Mersenne Twister, and its numbers are in the ranges asked for. *)
From Verif Require Import Base Random RandomSpec RandomProofs RandomMore.
Import ListNotations.
Local Open Scope Z_scope.

Theorem C138_sequence : forall o, fresh o ->
  exists x, (forall i, (i < Z.to_nat 624)%nat -> x i = nth i o 0) /\ twister x /\
    forall k, exists l, nexts k o = Ok l /\ length l = k /\
      forall j, (j < k)%nat -> scrambled (x (Z.to_nat 624 + j)%nat) (nth j l 0).
Proof. exact sequence_ok. Qed.
Print Assumptions C138_sequence.

(** Every seed gives a generator, and those of 32 bits one with no word zero. *)
Theorem C138_fresh : forall s, fresh (seeded s).
Proof. exact seed_fresh. Qed.
Print Assumptions C138_fresh.

Theorem C138_seed : forall s, 0 <= s < 2 ^ 32 ->
  fresh (seeded s) /\ forall i, (i < Z.to_nat 624)%nat -> 0 < nth i (seeded s) 0.
Proof. exact seed_ok. Qed.
Print Assumptions C138_seed.

Theorem C138_next : forall o, usable o ->
  exists t o', next o = Ok ((t, 2 ^ 32 - 1), o') /\ 0 <= t <= 2 ^ 32 - 1 /\ usable o'.
Proof. exact next_numerator. Qed.
Print Assumptions C138_next.

Theorem C138_between : forall low high o, usable o -> low <= high -> high - low + 1 <= 2 ^ 32 - 1 ->
  exists v o', between low high o = Ok (v, o') /\ low <= v <= high /\ usable o'.
Proof. exact between_range. Qed.
Print Assumptions C138_between.

(** The words of the generator that give a value are as many for each value as for any other, but one. *)
Theorem C138_uniform : forall limit v, 1 <= limit <= 2 ^ 32 - 1 -> 0 <= v < limit ->
  exists a b, 0 <= a /\ b <= 2 ^ 32 /\ 2 ^ 32 / limit <= b - a <= 2 ^ 32 / limit + 1 /\
    forall o, usable o -> exists t o' u, next o = Ok ((t, 2 ^ 32 - 1), o') /\ next_limit limit o = Ok (u, o') /\
      (u = v <-> a <= t < b).
Proof. exact uniform_ok. Qed.
Print Assumptions C138_uniform.

(** FINDING: 2^32 values or more are an error, not only for numbers that are too large to be
    SmallIntegers (libgst/prims.def:6249). *)
Theorem C138_wide : forall low high o, usable o -> 2 ^ 32 <= high - low + 1 -> between low high o = Err.
Proof. exact between_wide. Qed.
Print Assumptions C138_wide.

Theorem C138_wide_refuted : exists low high o, usable o /\ low <= high /\ between low high o = Err.
Proof. exact wide_bad. Qed.
Print Assumptions C138_wide_refuted.

(** FINDING: the empty range that ends just before [low] is not an error: it answers [low], which is above
    [high]; all other empty ranges are errors. *)
Theorem C138_empty : forall low high o, usable o -> high < low ->
  if high =? low - 1 then exists o', between low high o = Ok (low, o') /\ usable o' else between low high o = Err.
Proof. exact between_empty. Qed.
Print Assumptions C138_empty.

Theorem C138_empty_refuted : exists low high o v o', usable o /\ high < low /\ between low high o = Ok (v, o').
Proof. exact empty_bad. Qed.
Print Assumptions C138_empty_refuted.

(** FINDING: the seeds -1 and -2 give the generator with all words zero that setSeed: says it avoids
    (kernel/Random.st:153-156): next answers 0 for ever and between:and: the lower bound. *)
Theorem C138_zero : forall s, s = -1 \/ s = -2 -> forall k, nexts k (seeded s) = Ok (repeat 0 k) /\
  forall low high, low <= high -> high - low + 1 <= 2 ^ 32 - 1 -> betweens k low high (seeded s) = Ok (repeat low k).
Proof. exact seed_bad. Qed.
Print Assumptions C138_zero.

Theorem C138_seed_refuted : exists s, forall k, nexts k (seeded s) = Ok (repeat 0 k).
Proof. exact zero_bad. Qed.
Print Assumptions C138_seed_refuted.

(** FINDING: an even seed and the odd seed after it give the same numbers (kernel/Random.st:154). *)
Theorem C138_twin : forall s, seeded (2 * s) = seeded (2 * s + 1).
Proof. exact seed_twin. Qed.
Print Assumptions C138_twin.

Theorem C138_twin_refuted : exists s s', s <> s' /\ seeded s = seeded s'.
Proof. exact twin_bad. Qed.
Print Assumptions C138_twin_refuted.

(** FINDING: next is said to exclude 1 (kernel/Random.st:75), but answers it: the numerator may be the
    denominator (libgst/prims.def:6244). *)
Theorem C138_one_refuted : exists s k l, 0 <= s < 2 ^ 32 /\ nexts (S k) (seeded s) = Ok l /\ nth k l 0 = 2 ^ 32 - 1.
Proof. exact one_bad. Qed.
Print Assumptions C138_one_refuted.

(** FINDING: the index word can be stored into with at:put:, and random_next does not check it
    (libgst/interp.inl:223-228). *)
Theorem C138_index_refuted : exists s v o, at_put (seeded s) 625 v = Ok o /\ next o = UB.
Proof. exact index_bad. Qed.
Print Assumptions C138_index_refuted.

(** Cases that meet the hypotheses. *)
Example C138_fresh_case : fresh (seeded 42) /\ nth 0 (seeded 42) 0 = 1812433253 * 43 mod 2 ^ 32.
Proof. split; [apply C138_fresh|vm_compute; reflexivity]. Qed.

Example C138_usable_case : usable (upd (seeded 42) (Z.to_nat 624) 17).
Proof.
  destruct (C138_fresh 42) as (L & F & _). split; [rewrite upd_length; exact L|]. split.
  - apply Forall_upd; [exact F|]. unfold isword. lia.
  - rewrite nth_upd_same by (rewrite L; lia). reflexivity.
Qed.

(** The first number of the reference program: a generator seeded with its own rule for 5489 would give
    3499211612; with the rule of this code, seed 5489 gives another. *)
Example C138_first_case : exists t, nexts 1 (seeded 5489) = Ok [t] /\ 0 < t < 2 ^ 32.
Proof. eexists. split; [vm_compute; reflexivity|]. split; reflexivity. Qed.

Example C138_share_case : 1 <= 6 <= 2 ^ 32 - 1 /\ 0 <= 5 < 6 /\ 2 ^ 32 / 6 = 715827882.
Proof. repeat split; lia. Qed.

Example C138_dice_case : exists v o', between 1 6 (seeded 42) = Ok (v, o') /\ 1 <= v <= 6.
Proof. destruct (C138_between 1 6 (seeded 42)) as (v & o' & E & R & _); try lia; [apply fresh_usable, C138_fresh|]. eauto. Qed.
