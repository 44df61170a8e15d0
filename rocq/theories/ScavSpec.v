(** What a scavenge is to do.  Nothing of queues, scanning and greying. *)
From Coq Require Import ZArith List Bool.
From Verif Require Import Base Scav.
Import ListNotations.
Local Open Scope list_scope.
Local Open Scope Z_scope.

(** the words by which an object keeps others alive *)
Definition fields (sh : shape) : list word := firstn (scanned sh) (tl (words sh)).

(** the young objects that can be reached from some words *)
Inductive reach (shapes : nat -> shape) (places : nat -> place) (roots : list word) : nat -> Prop :=
| reach_root o : places o = Young -> In (WOop o) roots -> reach shapes places roots o
| reach_field o x : reach shapes places roots x -> places o = Young ->
    In (WOop o) (fields (shapes x)) -> reach shapes places roots o.

(** an object is alive with a given body *)
Definition holds (s : st) (o : nat) (body : list word) : Prop :=
  match place_of s o with
  | At a => forall k w, nth_error body k = Some w -> mem s (a + Z.of_nat k) = w
  | Tenured b => b = body
  | Old | Young => False
  end.

(** the bodies in the survivor space are within it and apart from one another *)
Definition apart (shapes : nat -> shape) (size : Z) (s : st) : Prop :=
  forall o a, place_of s o = At a ->
  0 <= a /\ a + Z.of_nat (List.length (words (shapes o))) <= size
  /\ forall o' a', place_of s o' = At a' -> o' <> o ->
       a + Z.of_nat (List.length (words (shapes o))) <= a'
       \/ a' + Z.of_nat (List.length (words (shapes o'))) <= a.

(** young objects as they are made: their first word is their size, they have a
    class, what is looked at is part of them; they fit in the survivor space *)
Definition well_made (size : Z) (sh : shape) : Prop :=
  hd_error (words sh) = Some (WInt (Z.of_nat (List.length (words sh))))
  /\ (1 <= scanned sh)%nat /\ (scanned sh < List.length (words sh))%nat
  /\ Z.of_nat (List.length (words sh)) <= size.

(** objects are young or old before a scavenge *)
Definition before (places : nat -> place) : Prop := forall o, places o = Young \/ places o = Old.

(** no more objects can be reached than the given number *)
Definition at_most (n : Z) (P : nat -> Prop) : Prop :=
  exists l, (forall o, P o -> In o l) /\ Z.of_nat (List.length l) <= n.

(** the objects that can be reached if an ephemeron keeps nothing alive unless its
    key is alive otherwise; if it is, the ephemeron keeps its other fields alive *)
(** the key of an ephemeron is its first instance variable (libgst/oop.c:1655-1660:
    the words before it are the size and the class) *)
Definition key_of (sh : shape) : list word := firstn 1 (skipn 2 (words sh)).
Inductive alive (shapes : nat -> shape) (places : nat -> place) (roots : list word) : nat -> Prop :=
| alive_root o : places o = Young -> In (WOop o) roots -> alive shapes places roots o
| alive_field o x : alive shapes places roots x -> places o = Young ->
    ephemeron (shapes x) = false -> In (WOop o) (fields (shapes x)) -> alive shapes places roots o
| alive_value o x k : alive shapes places roots x -> places o = Young ->
    ephemeron (shapes x) = true -> key_of (shapes x) = [WOop k] -> alive shapes places roots k ->
    In (WOop o) (fields (shapes x)) -> alive shapes places roots o.
