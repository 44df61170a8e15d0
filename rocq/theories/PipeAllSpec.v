(** What methods that read many objects should do. *)
From Verif Require Import Base Pipe.

(** What is before the first object that is equal to [x], and what is after it. *)
Fixpoint cut (x : obj) (l : list obj) : list obj * list obj :=
  match l with
  | [] => ([], [])
  | y :: t => if eqb y x then ([], t) else let (a, r) := cut x t in (y :: a, r)
  end.
(** The parts of a list: one starts at the start, and one after every object that is equal to [x]. *)
Fixpoint parts (x : obj) (l : list obj) : list (list obj) :=
  match l with
  | [] => [[]]
  | y :: t => if eqb y x then [] :: parts x t else match parts x t with p :: ps => (y :: p) :: ps | [] => [[y]] end
  end.
(** ... but for the last if it is empty. *)
Definition some_parts (x : obj) (l : list obj) : list (list obj) :=
  match last (parts x l) [] with [] => removelast (parts x l) | _ => parts x l end.
Definition has (x : obj) (l : list obj) : bool := existsb (fun y => eqb y x) l.
