(** C26 and C82: the mark phase and ephemerons. *)
From Verif Require Import Base Mark MarkSpec MarkFindings.
Local Open Scope nat_scope.

(** C26: for every heap, if no ephemeron has a SmallInteger as key and the recursion ends *)
Theorem C26_partial : forall fuel h roots, good_heap h roots -> no_integer_keys h ->
  match mark_oops fuel h roots with
  | Ok s => forall i, reached s i = true <-> reachable h roots i
  | OutOfFuel => True
  | _ => False
  end.
Proof. exact mark_exact_s. Qed.
Print Assumptions C26_partial.

(** it ends, if moreover no ephemeron has an ephemeron as key *)
Theorem C26_ends_partial : forall h roots, good_heap h roots -> no_integer_keys h -> no_ephemeron_keys h ->
  exists s, mark_oops (S (length h)) h roots = Ok s /\ forall i, reached s i = true <-> reachable h roots i.
Proof. exact mark_ends. Qed.
Print Assumptions C26_ends_partial.

(** a class, a context with its receiver (3), a dead stack slot (4) and a cycle (3, 5), a weak object (6),
    two ephemerons (7, 8), and garbage *)
Definition example_heap : heap :=
  [plain 0 []; plain 0 [Oop 0];
   Object_ true false false 1
     [Oop 0; Int 0; Int 7; Int 0; Oop 3; Oop 0; Int 1; Oop 6; Oop 4; Oop 4];
   plain 1 [Int 5; Oop 5; Oop 7]; plain 1 []; plain 1 [Oop 3; Oop 3];
   Object_ false true false 1 [Oop 4; Oop 9];
   ephem 1 [Oop 9; Oop 8]; ephem 1 [Oop 5; Oop 10]; plain 1 [Oop 7]; plain 1 []; plain 0 [Oop 2]].

Definition example_marks : option (list bool * list nat) :=
  match mark_oops (S (length example_heap)) example_heap [Oop 2; Int 3] with
  | Ok s => Some (map (reached s) (seq 0 (length example_heap)), buffer s)
  | _ => None
  end.

Example C26_example : good_heap example_heap [Oop 2; Int 3] /\ no_integer_keys example_heap
  /\ no_ephemeron_keys example_heap
  /\ example_marks = Some ([true; true; true; true; false; true; true; true; true; true; true; false], [7]).
Proof.
  split; [split; repeat constructor; cbn; try lia; try discriminate; intros _; exists 0%Z; cbn; repeat split; lia|].
  split; [|split; [|vm_compute; reflexivity]].
  - intros e z (ob & A1 & A2 & A3 & A4).
    do 12 (destruct e as [|e]; [cbn in A1; injection A1 as <-; cbn in *; discriminate|]). destruct e; discriminate.
  - intros e k r (ob & A1 & A2 & A3 & A4) (ok & B1 & B2 & B3 & B4).
    do 12 (destruct e as [|e]; [cbn in A1; injection A1 as <-; cbn in *; try discriminate;
                                injection A4 as <-; cbn in B1; injection B1 as <-; discriminate|]).
    destruct e; discriminate.
Qed.

(** an ephemeron whose key is the number 3 makes the mark phase follow an address that is none *)
Theorem C26_integer_key_refuted : exists h roots, good_heap h roots
  /\ forall fuel, 0 < fuel -> mark_oops fuel h roots = UB.
Proof. exists integer_key, [Oop 1]. exact (conj integer_key_good integer_key_ub). Qed.
Print Assumptions C26_integer_key_refuted.

(** two ephemerons that are the keys of each other make it recur forever *)
Theorem C26_cyclic_refuted : exists h roots, good_heap h roots /\ no_integer_keys h
  /\ forall fuel, mark_oops fuel h roots = OutOfFuel.
Proof. exists cyclic, [Oop 1]. exact (conj (proj1 cyclic_good) (conj (proj2 cyclic_good) cyclic_forever)). Qed.
Print Assumptions C26_cyclic_refuted.

(** C82: a mourned ephemeron has a key that is not reachable but through ephemerons, and an ephemeron
    with the only reference to its key is mourned *)
Theorem C82_partial : forall h roots s e k, good_heap h roots -> no_integer_keys h -> no_ephemeron_keys h ->
  mark_oops (S (length h)) h roots = Ok s -> ephemeron h e (Oop k) ->
  (In e (buffer s) -> ~ reachable (without_ephemerons h) roots k)
  /\ (reachable h roots e -> ~ reachable (without_key h e) roots k -> In e (buffer s)).
Proof. exact mourning. Qed.
Print Assumptions C82_partial.

Example C82_example : ephemeron example_heap 7 (Oop 9) /\ ephemeron example_heap 8 (Oop 5)
  /\ option_map snd example_marks = Some [7].
Proof.
  split; [|split; [|vm_compute; reflexivity]]; eexists; repeat split.
Qed.

(** an ephemeron whose value refers to its key is never mourned *)
Theorem C82_never_refuted : exists h roots e s, good_heap h roots /\ no_integer_keys h /\ no_ephemeron_keys h
  /\ to_mourn h roots e /\ mark_oops (S (length h)) h roots = Ok s /\ ~ In e (buffer s).
Proof. exact never_mourned. Qed.
Print Assumptions C82_never_refuted.

(** an ephemeron is mourned whose key is the value of another one with a live key *)
Theorem C82_early_refuted : exists h roots e s, good_heap h roots /\ no_integer_keys h /\ no_ephemeron_keys h
  /\ mark_oops (S (length h)) h roots = Ok s /\ In e (buffer s) /\ ~ to_mourn h roots e.
Proof. exact wrongly_mourned. Qed.
Print Assumptions C82_early_refuted.
