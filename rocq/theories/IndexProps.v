(** C05 and C06: indexed access is confined to the elements of the object, and
    what is stored is what is read. *)
From Verif Require Import Base Digits IntRep CInt Index IndexSpec IndexProofs.

(** basicSize is the number of elements, so that the bounds below are its. *)
Theorem C05_basicSize : forall o n, wf_obj o -> has_size o n -> basic_size o = n.
Proof. exact basic_size_ok. Qed.
Print Assumptions C05_basicSize.

Theorem C05_out_of_range_refused : forall o n i v,
  wf_obj o -> has_size o n -> 1 <= n -> plain_index o i -> ~ (1 <= i <= n) ->
  at_ o i = Err /\ at_put o i v = Err.
Proof. exact out_of_range_refused. Qed.
Print Assumptions C05_out_of_range_refused.

Theorem C05_in_range_reads : forall o n i,
  wf_obj o -> has_size o n -> plain_index o i -> 1 <= i <= n -> exists v, at_ o i = Ok v.
Proof. exact in_range_reads. Qed.
Print Assumptions C05_in_range_reads.

Theorem C05_reads_only_its_slot : forall o o' n i,
  wf_obj o -> wf_obj o' -> same_layout o o' -> has_size o n -> plain_index o i -> 1 <= i <= n ->
  (forall k, in_slot o i k -> agree_at o o' k) -> at_ o i = at_ o' i.
Proof. exact reads_only_slot. Qed.
Print Assumptions C05_reads_only_its_slot.

Theorem C05_writes_only_its_slot : forall o n i v o',
  wf_obj o -> has_size o n -> plain_index o i -> 1 <= i <= n ->
  at_put o i v = Ok o' ->
  wf_obj o' /\ same_layout o o' /\ forall k, 0 <= k -> ~ in_slot o i k -> agree_at o o' k.
Proof. exact writes_only_slot. Qed.
Print Assumptions C05_writes_only_its_slot.

(** at: 1 on an object without indexed elements leaves the object; indices that
    wrap when multiplied by the element size are accepted and alias element 1. *)
Theorem C05_index_bounds_refuted :
  (exists o, wf_obj o /\ has_size o 0 /\ at_ o 1 = UB /\ at_put o 1 (VOther 0) = UB) /\
  (exists o i v, wf_obj o /\ has_size o 1 /\ - 2 ^ 62 <= i < 2 ^ 62 /\ ~ (1 <= i <= 1) /\ at_ o i = Ok v) /\
  (exists o i v o', wf_obj o /\ has_size o 1 /\ - 2 ^ 62 <= i < 0 /\ at_put o i v = Ok o' /\ at_ o 1 <> at_ o' 1).
Proof. exact index_bounds_refuted_l. Qed.
Print Assumptions C05_index_bounds_refuted.

Theorem C06_store_then_load : forall o n i v,
  wf_obj o -> has_size o n -> plain_index o i -> 1 <= i <= n ->
  fits (o_shape o) v -> ~ deviant (o_shape o) v ->
  exists o', at_put o i v = Ok o' /\ wf_obj o' /\ has_size o' n /\ at_ o' i = Ok v /\
    forall j, plain_index o j -> 1 <= j <= n -> j <> i -> at_ o' j = at_ o j.
Proof. exact store_load. Qed.
Print Assumptions C06_store_then_load.

(** Negative int16 elements read back as positive; the largest int32 and uint32
    are refused; the large uint64 are converted by an oversized shift. *)
Theorem C06_store_load_refuted :
  (exists o o' v w, wf_obj o /\ has_size o 4 /\ fits (o_shape o) v /\ at_put o 1 v = Ok o' /\ at_ o' 1 = Ok w /\ w <> v) /\
  (exists o v, wf_obj o /\ has_size o 2 /\ o_shape o = Int /\ fits (o_shape o) v /\ at_put o 1 v = Err) /\
  (exists o v, wf_obj o /\ has_size o 2 /\ o_shape o = UInt /\ fits (o_shape o) v /\ at_put o 1 v = Err) /\
  (exists o v, wf_obj o /\ has_size o 1 /\ o_shape o = UInt64 /\ fits (o_shape o) v /\ at_put o 1 v = UB).
Proof. exact store_load_refuted_l. Qed.
Print Assumptions C06_store_load_refuted.

(** A ByteArray-like object with one instance variable and three elements. *)
Definition ex_obj : obj := mk_obj UChar 1 5 (Bytes [1; 2; 3; 4; 5; 6; 7; 8; 10; 20; 30; 0; 0; 0; 0; 0]).

Example index_hypotheses : wf_obj ex_obj /\ has_size ex_obj 3 /\ plain_index ex_obj 2 /\
  fits (o_shape ex_obj) (VInt (Small 200)) /\ ~ deviant (o_shape ex_obj) (VInt (Small 200)) /\
  basic_size ex_obj = 3 /\ at_ ex_obj 2 = Ok (VInt (Small 20)) /\ at_ ex_obj 4 = Err /\
  at_put ex_obj 2 (VInt (Small 200)) = Ok (mk_obj UChar 1 5 (Bytes [1; 2; 3; 4; 5; 6; 7; 8; 10; 200; 30; 0; 0; 0; 0; 0])).
Proof.
  split; [split; cbn; [lia|]; repeat split; try lia; repeat constructor; lia|].
  split; [reflexivity|]. split; [unfold plain_index; cbn; lia|]. split; [cbn; lia|].
  split; [cbn; tauto|]. repeat split; vm_compute; reflexivity.
Qed.
