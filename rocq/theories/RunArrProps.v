(** Theorems about RunArrays. *)
From Coq Require Import ZArith List Bool.
From Verif Require Import Base Hashed RunArr RunArrSpec RunArrRun RunArrProofs.
Import ListNotations.
Local Open Scope Z_scope.

(** C36 asks for the messages that add and replace elements too; for these it
    is false, see [C36_refuted]; and removing the only element signals an
    error. *)
Theorem C36_partial : forall (A : Type) (eqb : A -> A -> bool),
  (forall x y, eqb x y = true <-> x = y) ->
  forall l os, l <> [] -> keeps_one os l ->
  exists r, asRunArray eqb l = Ok r /\ rrun eqb os r = Ok (rhistory os l).
Proof. exact @history_ok. Qed.
Print Assumptions C36_partial.

Example C36_partial_ex :
  let l := [1;1;2;3;3;3;1] in
  let os := [RAt 6; RRemove 3; RAt 3; RPutSame 2; RRemoveLast; RRemoveFirst; RAt 1;
             RDo; RSize; RCopy; RLast; RAt 5] in
  l <> [] /\ keeps_one os l /\
  rhistory os l = [RElt 3; RElt 2; RElt 3; RElt 1; RElt 1; RElt 1; RElt 1;
                   RElts [1;3;3;3]; RNum 4; RElts [1;3;3;3]; RElt 3; RError].
Proof.
  split; [discriminate|]. split; [|vm_compute; reflexivity].
  repeat (split; [intros _; apply Nat.leb_le; vm_compute; reflexivity|]). exact I.
Qed.

(** Adding an element equal to the last one makes the new last element
    inaccessible; adding to an empty RunArray signals an error; replacing the
    first element of a run inserts instead; so does, for later reads, an
    insertion next to an equal element; and removing the only element signals
    an error. *)
Theorem C36_refuted :
  (exists r r', asRunArray Z.eqb [1;2] = Ok r /\ addLast Z.eqb 2 r = Ok r' /\
     size r' = 3 /\ at_ 3 r' = Err) /\
  (forall x, addLast Z.eqb x new_ = Err /\ addFirst Z.eqb x new_ = Err) /\
  (exists r r', asRunArray Z.eqb [1;2] = Ok r /\ atPut Z.eqb 1 5 r = Ok r' /\
     do_ r' = [5;1;2]) /\
  (exists r r' r'', asRunArray Z.eqb [1;1;2] = Ok r /\ addAfter Z.eqb 1 1 r = Ok r' /\
     do_ r' = [1;1;1;2] /\ at_ 3 r' = Ok (2, r'')) /\
  (exists r, asRunArray Z.eqb [1] = Ok r /\ removeFirst r = Err).
Proof.
  split; [|split; [|split; [|split]]].
  - do 2 eexists. repeat split; vm_compute; reflexivity.
  - intros x. split; reflexivity.
  - do 2 eexists. repeat split; vm_compute; reflexivity.
  - do 3 eexists. repeat split; vm_compute; reflexivity.
  - eexists. split; vm_compute; reflexivity.
Qed.
Print Assumptions C36_refuted.

(** Adding a collection after an element that begins a run puts it before that
    element and doubles the element; adding one in the middle of a run works,
    but the run that could be joined with it is not. *)
Theorem C36_addAll_refuted :
  (exists r r', asRunArray Z.eqb [1;2] = Ok r /\ addAllAfter Z.eqb [3] 1 r = Ok r' /\
     do_ r' = [3;1;1;2] /\ size r' = 3) /\
  (exists r r' r'', asRunArray Z.eqb [1;1;1;1] = Ok r /\ addAllAfter Z.eqb [3;1] 2 r = Ok r' /\
     asRunArray Z.eqb [1;1;3;1;1;1] = Ok r'' /\ do_ r' = [1;1;3;1;1;1] /\ size r' = 6 /\
     equal Z.eqb r' r'' = false).
Proof.
  split; do 2 eexists; [|eexists]; repeat split; vm_compute; reflexivity.
Qed.
Print Assumptions C36_addAll_refuted.

(** C61: RunArrays just converted from sequences are equal exactly when the
    sequences are *)
Theorem C61_partial : forall (A : Type) (eqb : A -> A -> bool),
  (forall x y, eqb x y = true <-> x = y) ->
  forall l l' r r', asRunArray eqb l = Ok r -> asRunArray eqb l' = Ok r' ->
  equal eqb r r' = true <-> l = l'.
Proof. exact @equal_converted. Qed.
Print Assumptions C61_partial.

Example C61_partial_ex : exists r r',
  asRunArray Z.eqb [1;1;2] = Ok r /\ asRunArray Z.eqb [1;2;2] = Ok r' /\
  equal Z.eqb r r' = false /\ equal Z.eqb r r = true.
Proof. do 2 eexists. repeat split; vm_compute; reflexivity. Qed.

(** but not after a removal: the same elements, in the same order, and [=]
    answers false *)
Theorem C61_refuted : exists r r' r'' x,
  asRunArray Z.eqb [1;2;1] = Ok r /\ removeAtIndex 2 r = Ok (x, r') /\
  asRunArray Z.eqb [1;1] = Ok r'' /\ do_ r' = do_ r'' /\
  equal Z.eqb r' r'' = false.
Proof. do 4 eexists. repeat split; vm_compute; reflexivity. Qed.
Print Assumptions C61_refuted.

(** C62: indexOf: looks for its start index instead of its argument *)
Theorem C62_refuted : exists r,
  asRunArray Z.eqb [7;8] = Ok r /\
  indexOf Z.eqb 8 1 0 (rmap r) = None /\ first_index Z.eqb 8 1 [7;8] 2.
Proof.
  eexists. split; [reflexivity|]. split; [reflexivity|]. split; [discriminate|].
  split; [exists 8; split; reflexivity|].
  intros j y [H1 H2] H3. assert (j = 1) as -> by Lia.lia. cbn in H3. injection H3 as <-. reflexivity.
Qed.
Print Assumptions C62_refuted.
(** An element equal to the start index is found instead. *)
Theorem C62_other_refuted : exists r,
  asRunArray Z.eqb [1;8] = Ok r /\
  indexOf Z.eqb 8 1 0 (rmap r) = Some 1 /\ first_index Z.eqb 8 1 [1;8] 2.
Proof.
  eexists. split; [reflexivity|]. split; [reflexivity|]. split; [discriminate|].
  split; [exists 8; split; reflexivity|].
  intros j y [H1 H2] H3. assert (j = 1) as -> by Lia.lia. cbn in H3. injection H3 as <-. reflexivity.
Qed.
Print Assumptions C62_other_refuted.
