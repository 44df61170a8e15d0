(** What marking must do: reachability in the graph of objects. *)
From Verif Require Import Base Mark.
Local Open Scope nat_scope.

(** The fields through which an object keeps others alive: a context has its fixed fields and
    its stack up to the stack pointer, a weak object none, other objects all. *)
Definition strong_fields (ob : object) : list ref :=
  if is_context ob then
    match nth_error (fields ob) 3 with
    | Some (Int sp) => firstn (Z.to_nat (7 + (sp + 1))) (fields ob)
    | _ => []
    end
  else if is_ephemeron ob then fields ob
  else if is_weak ob then []
  else fields ob.

Definition refers (h : heap) (i j : nat) : Prop :=
  exists ob, nth_error h i = Some ob /\ (j = class_of ob \/ In (Oop j) (strong_fields ob)).

Inductive reachable (h : heap) (roots : list ref) : nat -> Prop :=
| from_root i : In (Oop i) roots -> reachable h roots i
| from_object i j : reachable h roots i -> refers h i j -> reachable h roots j.

(** A heap: every reference is to an object, the stack pointer of a context
    is a number and inside its stack or just before it, an
    ephemeron has a first field (or primitive makeEphemeron fails). *)
Definition exists_in (h : heap) (r : ref) : Prop :=
  match r with Oop i => i < length h | Int _ => True end.

Definition good_object (h : heap) (ob : object) : Prop :=
  class_of ob < length h /\ Forall (exists_in h) (fields ob)
  /\ (is_context ob = true -> exists sp, nth_error (fields ob) 3 = Some (Int sp)
        /\ (-1 <= sp)%Z /\ (7 + sp < Z.of_nat (length (fields ob)))%Z)
  /\ (is_ephemeron ob = true -> fields ob <> []).

Definition good_heap (h : heap) (roots : list ref) : Prop :=
  Forall (good_object h) h /\ Forall (exists_in h) roots.

(** The ephemerons proper and their keys. *)
Definition ephemeron (h : heap) (e : nat) (k : ref) : Prop :=
  exists ob, nth_error h e = Some ob /\ is_ephemeron ob = true /\ is_context ob = false
    /\ nth_error (fields ob) 0 = Some k.

(** No ephemeron has a SmallInteger as key. *)
Definition no_integer_keys (h : heap) : Prop := forall e z, ~ ephemeron h e (Int z).

(** No ephemeron has an ephemeron as key. *)
Definition no_ephemeron_keys (h : heap) : Prop :=
  forall e k r, ephemeron h e (Oop k) -> ~ ephemeron h k r.

(** The heap in which ephemerons keep nothing alive but their class, and the heap in which
    the ephemeron [e] does not have its key. *)
Definition without_fields (ob : object) : object :=
  if is_ephemeron ob && negb (is_context ob)
  then Object_ false (is_weak ob) true (class_of ob) [] else ob.
Definition without_ephemerons (h : heap) : heap := map without_fields h.

Definition without_key (h : heap) (e : nat) : heap :=
  match nth_error h e with
  | Some ob => firstn e h ++ [Object_ (is_context ob) (is_weak ob) (is_ephemeron ob) (class_of ob)
                                (tl (fields ob))] ++ skipn (S e) h
  | None => h
  end.

(** The heap in which the ephemeron [e] refers to nothing but its class. *)
Definition cut (h : heap) (e : nat) : heap :=
  match nth_error h e with
  | Some ob => firstn e h ++ [Object_ (is_context ob) (is_weak ob) (is_ephemeron ob) (class_of ob) []]
                 ++ skipn (S e) h
  | None => h
  end.

(** When #mourn must be sent (kernel/Object.st:380-386): all the paths to the first field of the ephemeron
    pass through the ephemeron. *)
Definition to_mourn (h : heap) (roots : list ref) (e : nat) : Prop :=
  exists k, ephemeron h e (Oop k) /\ reachable h roots e /\ ~ reachable (cut h e) roots k.
