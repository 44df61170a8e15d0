(** What a MappedCollection is: its keys, each with its object (kernel/MappedColl.st:38-56). *)
From Verif Require Import Base Mapped.
Import ListNotations.
Local Open Scope Z_scope.

(** The objects at these indices of the domain. *)
Definition objects (d : list Z) (is : list Z) : list Z := map (fun i => nth (Z.to_nat (i - 1)) d 0) is.
(** The keys and what is found at them: numbers from 1 on for an Array. *)
Definition entries (c : mapped) : list (Z * Z) :=
  match mapof c with
  | MSeq l => combine (map Z.of_nat (List.seq 1 (length l))) (objects (domain c) l)
  | MDict l => combine (map fst l) (objects (domain c) (map snd l))
  end.
(** All indices are in the domain, and no key is there twice. *)
Definition valid (c : mapped) : Prop :=
  (forall i, In i (map_do (mapof c)) -> 1 <= i <= Z.of_nat (length (domain c))) /\
  NoDup (map_keys (mapof c)).
(** A map of numbers to themselves. *)
Definition same_numbers (c : mapped) : Prop :=
  forall i, In i (map_do (mapof c)) -> map_at (mapof c) i = Ok i.
(** The entries of what collect: answers. *)
Definition centries (x : collected) : list (Z * Z) :=
  match x with
  | Plain (MSeq l) => combine (map Z.of_nat (List.seq 1 (length l))) l
  | Plain (MDict l) => l
  | Again c => entries c
  end.
