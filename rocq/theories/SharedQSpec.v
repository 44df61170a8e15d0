(** What is expected of a SharedQueue. *)
From Verif Require Import Base SharedQ.
Local Open Scope Z_scope.

(** The elements added to and removed from the collection, in order. *)
Definition added (os : list obs) : list Z :=
  flat_map (fun o => match o with Added _ v => [v] | _ => [] end) os.
Definition removed (os : list obs) : list Z :=
  flat_map (fun o => match o with Removed _ v => [v] | _ => [] end) os.

(** Those that process [i] added; those that it removed or looked at. *)
Definition added_by (i : nat) (os : list obs) : list Z :=
  flat_map (fun o => match o with Added j v => if Nat.eqb i j then [v] else [] | _ => [] end) os.
Definition found_by (i : nat) (os : list obs) : list Z :=
  flat_map (fun o => match o with
    | Removed j v | Looked j v => if Nat.eqb i j then [v] else [] | _ => [] end) os.

Definition prefix {A} (a b : list A) : Prop := exists c, a ++ c = b.

(** The arguments of nextPut: in a program. *)
Definition puts (p : list op) : list Z :=
  flat_map (fun o => match o with Put v => [v] | _ => [] end) p.

(** A process that is between two operations, or waits for an element. *)
Definition resting (t : thread) : Prop := at_ t = Idle \/ at_ t = BlockV.
