(** What the object table must do: which objects there are and what they contain,
    and nothing about flags or sweeping. *)
From Verif Require Import Base OopTab OopTabRun.
Local Open Scope Z_scope.

(** The objects, by OOP. *)
Definition objects := Z -> option Z.

(** An OOP that is in use. *)
Definition used (m : objects) (i : Z) : Prop := m i <> None.

(** [i] is the lowest OOP that no object has. *)
Definition lowest_free (m : objects) (i : Z) : Prop :=
  0 <= i /\ m i = None /\ forall j, 0 <= j < i -> used m j.

(** The effect of a request.  [young] are the objects that a scavenge may
    reclaim: those created since the last global collection that have not been made old. *)
Record world := World { objs : objects; young : Z -> bool }.

Inductive effect : world -> request -> answer -> world -> Prop :=
| eff_new w c extra i :
    lowest_free (objs w) i ->
    effect w (NewObject c extra) (AOop i)
      (World (fun j => if j =? i then Some c else objs w j)
             (fun j => if j =? i then true else young w j))
| eff_large w c i :
    lowest_free (objs w) i ->
    effect w (NewLargeObject c) (AOop i)
      (World (fun j => if j =? i then Some c else objs w j)
             (fun j => if j =? i then false else young w j))
| eff_step w b : effect w SweepStep (ASwept b) w
| eff_all w : effect w SweepAll ANone w
| eff_scavenge w keep tenure :
    effect w (Scavenge keep tenure) ANone
      (World (fun j => if young w j && negb (keep j) then None else objs w j)
             (fun j => young w j && keep j && negb (tenure j)))
| eff_global w keep :
    effect w (GlobalGC keep) ANone
      (World (fun j => if keep j then objs w j else None) (fun _ => false))
| eff_alive w i b :
    (b = true <-> used (objs w) i) -> effect w (IsAlive i) (ABool b) w
| eff_cont w i c :
    objs w i = Some c -> effect w (Contents i) (ACont c) w
(** nothing is said about the contents of an OOP that is not in use *)
| eff_dead w i c : objs w i = None -> effect w (Contents i) (ACont c) w.

Inductive effects : world -> list request -> list answer -> world -> Prop :=
| effs_nil w : effects w [] [] w
| effs_cons w r a w1 rs l w2 :
    effect w r a w1 -> effects w1 rs l w2 -> effects w (r :: rs) (a :: l) w2.

Definition no_objects : world := World (fun _ => None) (fun _ => false).
