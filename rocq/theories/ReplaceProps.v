(** C46: replaceFrom:to:with:startingAt:. *)
From Verif Require Import Base Replace ReplaceSpec ReplaceProofs.

(** C46 as stated is false: the primitive keeps 32 bits of its arguments, so an index out of range stores. *)
Theorem C46_refuted : exists start stop from dst l,
  - 2 ^ 62 <= start < 2 ^ 62 /\ - 2 ^ 62 <= stop < 2 ^ 62 /\ ~ in_range dst start stop [9] from /\
  prim_replace 3 dst start stop [9] from = Ok (Some l) /\ l <> dst.
Proof. exact prim_replace_wraps. Qed.
Print Assumptions C46_refuted.
(** And its bounds check overflows a C int, which is undefined. *)
Theorem C46_overflow_refuted : exists start stop from (dst src : list Z),
  - 2 ^ 62 <= from < 2 ^ 62 /\ 1 <= start /\ stop <= Z.of_nat (length dst) /\
  prim_replace 3 dst start stop src from = UB.
Proof. exact prim_replace_overflow. Qed.
Print Assumptions C46_overflow_refuted.
(** What remains: indices within 2^29 and objects shorter than 2^28. *)
Theorem C46_partial : forall (A : Type) size (dst : list A) start stop src from, 0 <= size <= 3 ->
  Z.of_nat (length dst) < 2 ^ 28 -> Z.of_nat (length src) < 2 ^ 28 ->
  - 2 ^ 29 <= start <= 2 ^ 29 -> - 2 ^ 29 <= stop <= 2 ^ 29 -> - 2 ^ 29 <= from <= 2 ^ 29 ->
  exists r, prim_replace size dst start stop src from = Ok r /\
    match r with
    | Some l => in_range dst start stop src from /\ replaced dst start stop src from l
    | None => ~ in_range dst start stop src from
    end.
Proof. exact @prim_replace_ok. Qed.
Print Assumptions C46_partial.
Example C46_partial_ex : prim_replace 3 [1; 2; 3; 4] 2 3 [5; 6; 7] 2 = Ok (Some [1; 6; 7; 4]) /\
  in_range [1; 2; 3; 4] 2 3 [5; 6; 7] 2.
Proof. split; [reflexivity|]. unfold in_range. cbn. lia. Qed.
