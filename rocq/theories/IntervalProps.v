(** C31 and C53-C55: Interval. *)
From Verif Require Import Base Interval IntervalSpec IntervalProofs.
Local Open Scope Z_scope.

(** do: visits the arithmetic progression up to stop, ends, and visits size elements. *)
Theorem C31_do a b s : s <> 0 -> exists l, do_ (mkI a b s) = Ok l /\ denotes a b s l /\
  size (mkI a b s) = Ok (Z.of_nat (length l)).
Proof. exact (do_denotes (mkI a b s)). Qed.
Print Assumptions C31_do.

Example C31_do_ex : do_ (mkI 1 10 4) = Ok [1; 5; 9] /\ do_ (mkI 10 1 (-4)) = Ok [10; 6; 2] /\ size (mkI 10 1 (-4)) = Ok 3.
Proof. vm_compute. auto. Qed.

(** There is only one such list. *)
Theorem C31_unique a b s l l' : s <> 0 -> denotes a b s l -> denotes a b s l' -> l = l'.
Proof. exact (denotes_unique a b s l l'). Qed.
Print Assumptions C31_unique.

Example C31_unique_ex : denotes 1 10 4 [1; 5; 9].
Proof.
  repeat split.
  - intros x H. cbn in *. unfold within. cbn. lia.
  - unfold within. cbn. lia.
Qed.

(** at: answers the elements visited by do:, and an error for any other index. *)
Theorem C31_at v l i : step v <> 0 -> do_ v = Ok l ->
  at_ v i = match (if 1 <=? i then nth_error l (Z.to_nat (i - 1)) else None) with Some x => Ok x | None => Err end.
Proof. exact (at_nth v l i). Qed.
Print Assumptions C31_at.

Example C31_at_ex : at_ (mkI 1 10 4) 3 = Ok 9 /\ at_ (mkI 1 10 4) 4 = Err /\ at_ (mkI 1 10 4) 0 = Err.
Proof. vm_compute. auto. Qed.

(** collect: gives the block the same elements in the same order, and never stores
    outside of the Array that it creates. *)
Theorem C31_collect v : step v <> 0 -> exists l, do_ v = Ok l /\ collect v = Ok (Z.of_nat (length l), l).
Proof. exact (collect_ok v). Qed.
Print Assumptions C31_collect.

Example C31_collect_ex : collect (mkI 10 1 (-4)) = Ok (3, [10; 6; 2]).
Proof. reflexivity. Qed.

(** copyFrom:to: answers the interval of the elements between the indices. *)
Theorem C31_copy v l a b : step v <> 0 -> do_ v = Ok l ->
  1 <= a -> a <= b + 1 -> b <= Z.of_nat (length l) ->
  exists w, copy_from_to v a b = Ok w /\
    do_ w = Ok (firstn (Z.to_nat (b - a + 1)) (skipn (Z.to_nat (a - 1)) l)).
Proof. exact (copy_ok v l a b). Qed.
Print Assumptions C31_copy.

Example C31_copy_ex : exists w, copy_from_to (mkI 1 20 4) 2 4 = Ok w /\ do_ w = Ok [5; 9; 13].
Proof. eexists. split; reflexivity. Qed.

(** With a step of zero do: of a non-empty range does not end. *)
Theorem C31_zero_step a b fuel : b <= a -> loop (0 <? 0) b 0 fuel a = OutOfFuel.
Proof. exact (zero_step a b fuel). Qed.
Print Assumptions C31_zero_step.

Example C31_zero_step_ex : loop (0 <? 0) 1 0 100 5 = OutOfFuel.
Proof. reflexivity. Qed.

(** isEmpty is right, but for an interval of one element with a negative step. *)
Theorem C53_partial v : step v <> 0 -> ~ (step v < 0 /\ start v = stop v) ->
  (is_empty v = true <-> size v = Ok 0).
Proof. exact (empty_size v). Qed.
Print Assumptions C53_partial.

Example C53_partial_ex : is_empty (mkI 1 10 4) = false /\ is_empty (mkI 10 1 4) = true /\ is_empty (mkI 10 1 (-4)) = false.
Proof. auto. Qed.

(** (5 to: 5 by: -1) has one element, says that it is empty, refuses to answer its first
    element and equals an empty interval. *)
Theorem C53_refuted : exists v, size v = Ok 1 /\ do_ v = Ok [5] /\ is_empty v = true /\
  first v = Err /\ last v = Err /\ equal v (mkI 1 0 1) = Ok true.
Proof. exact one_element. Qed.
Print Assumptions C53_refuted.

(** first and last are the first and last element. *)
Theorem C53_first_last v l : step v <> 0 -> ~ (step v < 0 /\ start v = stop v) -> do_ v = Ok l ->
  first v = match hd_error l with Some x => Ok x | None => Err end /\
  last v = match hd_error (rev l) with Some x => Ok x | None => Err end.
Proof. exact (first_last v l). Qed.
Print Assumptions C53_first_last.

Example C53_first_last_ex : first (mkI 1 10 4) = Ok 1 /\ last (mkI 1 10 4) = Ok 9.
Proof. auto. Qed.

(** Intervals that are equal have the same elements. *)
Theorem C54_equal v w lv lw : step v <> 0 -> step w <> 0 ->
  ~ (step v < 0 /\ start v = stop v) -> ~ (step w < 0 /\ start w = stop w) ->
  do_ v = Ok lv -> do_ w = Ok lw -> equal v w = Ok true -> lv = lw.
Proof. exact (equal_ok v w lv lw). Qed.
Print Assumptions C54_equal.

Example C54_equal_ex : equal (mkI 1 10 4) (mkI 1 9 4) = Ok true.
Proof. reflexivity. Qed.

(** Equal intervals may have different hash values. *)
Theorem C54_refuted : exists v w, equal v w = Ok true /\ do_ v = do_ w /\ hash v <> hash w.
Proof. exact equal_hash. Qed.
Print Assumptions C54_refuted.

(** Equal intervals with the same bounds have the same hash value. *)
Theorem C54_partial v w : equal v w = Ok true -> is_empty v = false -> stop v = stop w -> hash v = hash w.
Proof. exact (same_hash v w). Qed.
Print Assumptions C54_partial.

Example C54_partial_ex : is_empty (mkI 1 9 4) = false /\ equal (mkI 1 9 4) (mkI 1 9 4) = Ok true.
Proof. auto. Qed.

(** reverse of an interval that has elements has them in the opposite order. *)
Theorem C55_partial v l : step v <> 0 -> do_ v = Ok l -> l <> [] ->
  exists w, reverse v = Ok w /\ do_ w = Ok (rev l).
Proof. exact (reverse_ok v l). Qed.
Print Assumptions C55_partial.

Example C55_partial_ex : exists w, reverse (mkI 1 10 4) = Ok w /\ do_ w = Ok [9; 5; 1].
Proof. eexists. split; reflexivity. Qed.

(** reverse of any empty interval is an error. *)
Theorem C55_empty v : step v <> 0 -> do_ v = Ok [] -> reverse v = Err.
Proof. exact (reverse_empty v). Qed.
Print Assumptions C55_empty.

Example C55_empty_ex : do_ (mkI 1 0 1) = Ok [] /\ reverse (mkI 1 0 1) = Err.
Proof. auto. Qed.

(** (1 to: 0) reverse is an error, so reverse does not answer the reversed elements. *)
Theorem C55_refuted : exists v, step v <> 0 /\ do_ v = Ok [] /\ forall w, reverse v <> Ok w.
Proof. exact reverse_refuted. Qed.
Print Assumptions C55_refuted.
