(** Theorems about red-black trees and the registries of the plug-in
    interface. *)
From Coq Require Import ZArith List Bool Lia Sorted.
From Verif Require Import Base RbTree RbSpec RbRun RbProofs.
Import ListNotations.
Local Open Scope Z_scope.

(** C34: for every history of registrations and unregistrations, whatever
    addresses the allocator answers, the registry holds exactly the objects
    with outstanding registrations, with the right counts; walking it visits
    them in increasing order, once each; every loop of an insertion or removal
    makes at most 2 log2 (n + 1) + 2 rounds, every search 2 log2 (n + 1) + 1. *)
Theorem C34_registry : forall fuel h,
  (2 * Nat.log2 (length h + 1) + 2 <= fuel)%nat -> run fuel h empty <> Err ->
  exists s l, run fuel h empty = Ok s /\
    StronglySorted Z.lt l /\ (forall k, In k l <-> (0 < refs k (map callOf h))%nat) /\
    (forall fuel, (3 * length l + 2 <= fuel)%nat -> traverse fuel s = Ok l) /\
    (forall fuel k, (2 * Nat.log2 (length l + 1) + 1 <= fuel)%nat ->
        usageOf fuel k s = Ok (Z.of_nat (refs k (map callOf h)))).
Proof. exact registry. Qed.
Print Assumptions C34_registry.

Example C34_registry_ex :
  let h := [MReg 1 10; MReg 2 20; MReg 3 30; MReg 4 40; MReg 5 50; MReg 6 60; MReg 9 30;
            MReg 7 25; MUnreg 20; MUnreg 30; MUnreg 10; MReg 2 15; MUnreg 40; MUnreg 99] in
  (2 * Nat.log2 (length h + 1) + 2 <= 20)%nat /\ run 20 h empty <> Err /\
  match run 20 h empty with Ok s => traverse 30 s = Ok [15; 25; 30; 50; 60] | _ => False end.
Proof.
  split; [apply Nat.leb_le; vm_compute; reflexivity|].
  split; [vm_compute; discriminate|vm_compute; reflexivity].
Qed.

(** C68: the same for arrays, provided no array is registered twice *)
Theorem C68_partial : forall fuel h,
  (2 * Nat.log2 (length h + 1) + 2 <= fuel)%nat -> runA fuel h empty <> Err ->
  once [] (map callOf h) ->
  exists s l, runA fuel h empty = Ok s /\
    StronglySorted Z.lt l /\ (forall k, In k l <-> (0 < refs k (map callOf h))%nat) /\
    (forall fuel, (3 * length l + 2 <= fuel)%nat -> traverse fuel s = Ok l) /\
    (forall fuel k, (2 * Nat.log2 (length l + 1) + 1 <= fuel)%nat ->
        usageOf fuel k s = Ok (Z.of_nat (refs k (map callOf h)))).
Proof. exact registryA. Qed.
Print Assumptions C68_partial.

(** registering an array that is registered already never returns, in any
    registry *)
Theorem C68_again : forall fuel h s,
  (2 * Nat.log2 (length h + 1) + 2 <= fuel)%nat -> runA fuel h empty = Ok s ->
  once [] (map callOf h) ->
  forall k, (0 < refs k (map callOf h))%nat ->
  forall fuel' a, registerArray fuel' a k s = OutOfFuel.
Proof. exact again_loops. Qed.
Print Assumptions C68_again.

Theorem C68_refuted : exists a a' k, forall fuel, (4 <= fuel)%nat ->
  exists s, runA fuel [MReg a k] empty = Ok s /\
    forall fuel', registerArray fuel' a' k s = OutOfFuel.
Proof. exact again_witness. Qed.
Print Assumptions C68_refuted.

Example C68_ex :
  let h := [MReg 1 10; MReg 2 20; MReg 3 30; MUnreg 20; MReg 2 20] in
  (2 * Nat.log2 (length h + 1) + 2 <= 20)%nat /\ once [] (map callOf h) /\
  (exists s, runA 20 h empty = Ok s) /\ (0 < refs 20 (map callOf h))%nat.
Proof.
  split; [apply Nat.leb_le; vm_compute; reflexivity|].
  split; [cbn; auto|]. split; [eexists; vm_compute; reflexivity|]. vm_compute. lia.
Qed.
