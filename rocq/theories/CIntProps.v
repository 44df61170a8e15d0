(** Property C07: C integer conversions. *)
From Verif Require Import Base Digits IntRep IntRepProofs CInt CIntProofs.

(** Converting a C integer to an Integer gives the canonical Integer of the same
    value, and converting back gives the C integer. *)
Theorem C07_int32_round_trip :
  forall i, - 2 ^ 31 <= i < 2 ^ 31 ->
  is_int_obj (from_c_int_32 i) i /\ to_c_int_32 (from_c_int_32 i) = i.
Proof. exact from_c_int_32_round. Qed.
Print Assumptions C07_int32_round_trip.

Theorem C07_uint32_round_trip :
  forall u, 0 <= u < 2 ^ 32 ->
  is_int_obj (from_c_uint_32 u) u /\ uwrap32 (to_c_int_32 (from_c_uint_32 u)) = u.
Proof. exact from_c_uint_32_round. Qed.
Print Assumptions C07_uint32_round_trip.

Theorem C07_int64_round_trip :
  forall i, - 2 ^ 63 <= i < 2 ^ 63 ->
  is_int_obj (from_c_int_64 i) i /\ to_c_int_64 (from_c_int_64 i) = Ok i.
Proof.
  intros i H. split; [apply from_c_int_64_obj, H|].
  exact (to_c_int_64_spec _ _ (from_c_int_64_obj i H) H).
Qed.
Print Assumptions C07_int64_round_trip.

Theorem C07_uint64_round_trip_below_2_63 :
  forall u, 0 <= u < 2 ^ 63 ->
  is_int_obj (from_c_uint_64 u) u /\ to_c_uint_64 (from_c_uint_64 u) = Ok u.
Proof.
  intros u H. assert (H' : 0 <= u < 2 ^ 64) by lia.
  split; [apply from_c_uint_64_obj, H'|].
  exact (to_c_uint_64_spec _ _ (from_c_uint_64_obj u H') H).
Qed.
Print Assumptions C07_uint64_round_trip_below_2_63.

(** FINDING: every uint64_t with the top bit set converts to an Integer that is
    accepted by is_c_uint_64, but reading it back shifts a 64-bit integer by 71. *)
Theorem C07_uint64_round_trip_refuted :
  (exists u, 0 <= u < 2 ^ 64 /\ to_c_uint_64 (from_c_uint_64 u) <> Ok u) /\
  (forall u, 2 ^ 63 <= u < 2 ^ 64 ->
     is_c_uint_64 (from_c_uint_64 u) = true /\ to_c_uint_64 (from_c_uint_64 u) = UB).
Proof.
  assert (G : forall u, 2 ^ 63 <= u < 2 ^ 64 ->
     is_c_uint_64 (from_c_uint_64 u) = true /\ to_c_uint_64 (from_c_uint_64 u) = UB).
  { intros u H. pose proof (from_c_uint_64_obj u ltac:(lia)) as O. split.
    - apply (is_c_uint_64_spec _ _ O). lia.
    - apply (to_c_uint_64_big _ _ O). lia. }
  split; [|exact G]. exists (2 ^ 63). split; [lia|]. rewrite (proj2 (G (2 ^ 63) ltac:(lia))). discriminate.
Qed.
Print Assumptions C07_uint64_round_trip_refuted.

(** Reading a canonical Integer that fits the C type gives its value. *)
Theorem C07_to_c_int_64_exact :
  forall i z, is_int_obj i z -> - 2 ^ 63 <= z < 2 ^ 63 -> to_c_int_64 i = Ok z.
Proof. exact to_c_int_64_spec. Qed.
Print Assumptions C07_to_c_int_64_exact.

(** The range predicates. *)
Theorem C07_is_c_int_64_exact :
  forall i z, is_int_obj i z -> is_c_int_64 i = true <-> - 2 ^ 63 <= z < 2 ^ 63.
Proof. exact is_c_int_64_spec. Qed.
Print Assumptions C07_is_c_int_64_exact.

Theorem C07_is_c_uint_64_exact :
  forall i z, is_int_obj i z -> is_c_uint_64 i = true <-> 0 <= z < 2 ^ 64.
Proof. exact is_c_uint_64_spec. Qed.
Print Assumptions C07_is_c_uint_64_exact.

Theorem C07_is_c_int_32_but_max :
  forall i z, is_int_obj i z -> z <> 2 ^ 31 - 1 ->
  is_c_int_32 i = true <-> - 2 ^ 31 <= z < 2 ^ 31.
Proof. exact is_c_int_32_spec. Qed.
Print Assumptions C07_is_c_int_32_but_max.

Theorem C07_is_c_uint_32_but_max :
  forall i z, is_int_obj i z -> z <> 2 ^ 32 - 1 ->
  is_c_uint_32 i = true <-> 0 <= z < 2 ^ 32.
Proof. exact is_c_uint_32_spec. Qed.
Print Assumptions C07_is_c_uint_32_but_max.

(** FINDING: 16r7FFFFFFF and 16rFFFFFFFF fit the C types but are rejected. *)
Theorem C07_range_predicates_refuted :
  exists i j, is_int_obj i (2 ^ 31 - 1) /\ is_c_int_32 i = false /\
              is_int_obj j (2 ^ 32 - 1) /\ is_c_uint_32 j = false.
Proof.
  exists (Small (2 ^ 31 - 1)), (Small (2 ^ 32 - 1)).
  split; [split; [cbn; lia|reflexivity]|]. split; [reflexivity|].
  split; [split; [cbn; lia|reflexivity]|]. reflexivity.
Qed.
Print Assumptions C07_range_predicates_refuted.

Example C07_example_large :
  is_int_obj (from_c_int_64 (- 2 ^ 63)) (- 2 ^ 63) /\
  from_c_int_64 (- 2 ^ 62 - 1) = Large true [255; 255; 255; 255; 255; 255; 255; 191] /\
  to_c_int_64 (Large true [255; 255; 255; 255; 255; 255; 255; 191]) = Ok (- 2 ^ 62 - 1) /\
  from_c_uint_64 (2 ^ 64 - 1) = Large false [255; 255; 255; 255; 255; 255; 255; 255; 0].
Proof.
  split; [apply from_c_int_64_obj; lia|]. vm_compute. repeat split.
Qed.
