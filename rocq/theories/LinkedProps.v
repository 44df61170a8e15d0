(** C139: LinkedLists hold the links that were added and not removed, in order. *)
From Verif Require Import Base Linked LinkedSpec LinkedProofs LinkedRun.
Import ListNotations.
Local Open Scope Z_scope.

(** Any program over any number of lists, whose links share one heap; the program always ends. *)
Theorem C139_program : forall ms w r w', meanings w ms r w' ->
  exists f0, forall h ls fuel, world h ls w -> (f0 <= fuel)%nat ->
    exists h' ls', sends fuel (h, ls) ms = Ok (r, (h', ls')) /\ world h' ls' w'.
Proof. exact sends_ok. Qed.
Print Assumptions C139_program.

Theorem C139_reads : forall h l s fuel, holds h l s -> (length s < fuel)%nat ->
  do_ fuel h l = Ok s /\ size fuel h l = Ok (Z.of_nat (length s)) /\
  (forall i, at_ fuel h l i = if 1 <=? i then match nth_error s (Z.to_nat (i - 1)) with Some v => Ok v | None => Err end else Err) /\
  (forall x, exists b, includes fuel h l x = Ok b /\ (b = true <-> In x s)) /\
  first_ l = match s with [] => Err | x :: _ => Ok x end /\
  last_ l = match s with [] => Err | x :: t => Ok (Some (last t x)) end.
Proof. exact reads_ok. Qed.
Print Assumptions C139_reads.

(** A link that was removed can be added to a list again: it has no next link. *)
Theorem C139_removed : forall h l s x fuel, holds h l s -> In x s -> (length s < fuel)%nat ->
  exists a b h' l', s = a ++ x :: b /\ remove_if_absent fuel h l (Some x) = Ok (Some x, (h', l')) /\ holds h' l' (a ++ b) /\
    h' x = None /\ forall y, ~ In y s -> h' y = h y.
Proof. exact remove_in. Qed.
Print Assumptions C139_removed.

(** FINDING: addLast: does not clear the nextLink of the link as addFirst: does
    (kernel/LinkedList.st:74-81): a link with a nextLink, in no list, brings another with it. *)
Theorem C139_reuse_refuted : exists h l s x fuel, holds h l s /\ ~ In x s /\
  let '(h', l') := add_last h l x in do_ fuel h' l' = Ok (s ++ [x; 8]) /\ last_ l' = Ok (Some x).
Proof. exact reuse_bad. Qed.
Print Assumptions C139_reuse_refuted.

(** FINDING: adding the last link again makes a list that has no end: do: and size do not return. *)
Theorem C139_twice_refuted : exists h l s x, holds h l s /\ In x s /\
  let '(h', l') := add_last h l x in forall fuel, do_ fuel h' l' = OutOfFuel /\ size fuel h' l' = OutOfFuel.
Proof. exact twice_bad. Qed.
Print Assumptions C139_twice_refuted.

(** FINDING: remove: nil ifAbsent: finds the nil after the last link and then sends it nextLink
    (kernel/LinkedList.st:136-139), in place of evaluating the block. *)
Theorem C139_nil_refuted : exists h l s fuel, holds h l s /\ remove_if_absent fuel h l None = Err.
Proof. exact nil_bad. Qed.
Print Assumptions C139_nil_refuted.

(** Cases that meet the hypotheses. *)
Example C139_world_case : world (fun _ => None) (fun _ => mk None None) (fun _ => []).
Proof.
  split; [|split; [intros i j x []|reflexivity]]. intros i. split; [reflexivity|]. split; [reflexivity|constructor].
Qed.

Example C139_program_case : exists w', meanings (fun _ => [])
  [AddLast 0 1; AddLast 0 2; AddFirst 0 3; AddFirst 1 4; Remove 0 1; AddLast 1 1; RemoveLast 1; RemoveFirst 0; RemoveFirst 2]
  [Some 1; Some 2; Some 3; Some 4; Some 1; Some 1; Some 1; Some 3; None] w' /\ w' 0%nat = [2] /\ w' 1%nat = [4].
Proof.
  eexists. split; [|split].
  - cbn [meanings]. repeat (split; [first [exact I | intros [|[|j]]; cbn; intuition lia | reflexivity]|]). reflexivity.
  - reflexivity.
  - reflexivity.
Qed.

Example C139_holds_case : holds (set (set (fun _ => None) 5 (Some 6)) 6 (Some 4)) (mk (Some 5) (Some 4)) [5; 6; 4].
Proof.
  split; [cbn; auto|]. split; [reflexivity|]. repeat constructor; cbn; intuition discriminate.
Qed.
