(** C20, C47: OrderedCollection. *)
From Verif Require Import Base OrderColl OrderCollSpec OrderCollClient OrderCollProofs.

(** C20: whatever the initial capacity and the messages, an OrderedCollection answers as the sequence would;
    in particular no access leaves the storage (it would be Err). *)
Theorem C20_ordered_collection : forall (A : Type) (nil : A) n (ms : list (omsg A)), 0 <= n ->
  exists c, oc_new nil n = Ok c /\ ohist nil c ms = Ok (orun [] ms).
Proof. exact @ohist_new. Qed.
Print Assumptions C20_ordered_collection.
Example C20_ordered_collection_ex : orun [] [OAddLast 1; OAddFirst 2; OAddAllAfter [3; 4] 1; ORemoveAt 2; ODo; ORemoveLast; OAt 3; OAddLast 5; ODo]
  = [Done; Done; Done; Elt 3; All [2; 4; 1]; Elt 1; Fail IndexOutOfRange; Done; All [2; 4; 5]].
Proof. reflexivity. Qed.

(** C47 as stated is false: c addAll: c can leave the storage, and c addAllFirst: c adds nils. *)
Theorem C47_addAll_refuted : exists (nil : Z) n m c1 c2,
  oc_new nil n = Ok c1 /\ addAll nil m c1 = Ok c2 /\ addAllSelf nil c2 = Err.
Proof. exact addAllSelf_fails. Qed.
Print Assumptions C47_addAll_refuted.
Theorem C47_addAllFirst_refuted : exists (nil x : Z) n c1 c2 c3,
  oc_new nil n = Ok c1 /\ addAll nil [x; x] c1 = Ok c2 /\
  addAllFirstSelf nil c2 = Ok c3 /\ x <> nil /\ elements_of nil c3 = Ok [nil; nil; x; x].
Proof. exact addAllFirstSelf_nils. Qed.
Print Assumptions C47_addAllFirst_refuted.
(** What remains: addAll: is right if the collection was created with six times the room needed. *)
Theorem C47_partial : forall (A : Type) (nil : A) n m, 6 * Z.of_nat (length m) <= n -> exists c1 c2 c3,
  oc_new nil n = Ok c1 /\ addAll nil m c1 = Ok c2 /\ addAllSelf nil c2 = Ok c3 /\ elements_of nil c3 = Ok (m ++ m).
Proof. exact @addAllSelf_new. Qed.
Print Assumptions C47_partial.
Example C47_partial_ex : 6 * Z.of_nat (length [7; 8; 9]) <= 18.
Proof. cbn. lia. Qed.
