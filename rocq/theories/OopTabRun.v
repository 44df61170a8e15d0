(** What a program and the scheduler ask of the object table. *)
From Verif Require Import Base OopTab.
Local Open Scope Z_scope.

(** Requests: an object is created in newspace ([extra]: further flags, as those
    of a context, libgst/interp.c:713) or, being large, in oldspace
    (libgst/oop.c:795 and 829); the idle process sweeps a little
    (libgst/prims.def:6181-6183) or the program asks for the end of the sweep
    (libgst/prims.def:6185-6187); a collection takes place; an OOP is looked at,
    by the enumeration of all objects (libgst/oop.c:589-606) or by following a
    reference. *)
Inductive request :=
| NewObject (c extra : Z)
| NewLargeObject (c : Z)
| SweepStep
| SweepAll
| Scavenge (keep tenure : Z -> bool)
| GlobalGC (keep : Z -> bool)
| IsAlive (i : Z)
| Contents (i : Z).

(** Answers: an OOP, the end of the sweep, yes or no, contents, nothing. *)
Inductive answer := AOop (i : Z) | ASwept (b : bool) | ABool (b : bool) | ACont (c : Z) | ANone.

(** A slot of the table. *)
Definition in_table (s : table) (i : Z) : bool := (0 <=? i) && (i <? size s).

(** Dispatch of a request to the function that serves it. *)
Definition serve (s : table) (r : request) : outcome (table * answer) :=
  match r with
  | NewObject c extra =>
      olet (s, i) := alloc_oop s c (Z.lor extra (active_flag s)) in Ok (s, AOop i)
  | NewLargeObject c => olet (s, i) := alloc_oop s c F_OLD in Ok (s, AOop i)
  | SweepStep => let '(s, b) := incremental_gc_step s in Ok (s, ASwept b)
  | SweepAll => Ok (finish_incremental_gc s, ANone)
  | Scavenge keep tenure => olet s := scavenge s keep tenure in Ok (s, ANone)
  | GlobalGC keep => olet s := global_gc s keep in Ok (s, ANone)
  | IsAlive i => if in_table s i then Ok (s, ABool (is_valid s i)) else UB
  | Contents i => if in_table s i then Ok (s, ACont (cont s i)) else UB
  end.

(** A history of requests, from the empty table. *)
Fixpoint run (s : table) (rs : list request) : outcome (table * list answer) :=
  match rs with
  | [] => Ok (s, [])
  | r :: rs => olet (s, a) := serve s r in olet (s, l) := run s rs in Ok (s, a :: l)
  end.

(** The flags a new object may have besides that of its space. *)
Definition plain_flags (extra : Z) : Prop :=
  Z.land extra (Z.lor (Z.lor F_REACHABLE F_SPACES) F_OLD) = 0 /\ 0 <= extra.

Definition proper (r : request) : Prop :=
  match r with NewObject _ extra => plain_flags extra | _ => True end.

(** No step of the sweep that is interrupted frees the last OOP of its range: the
    condition of [C27_partial]. *)
Fixpoint no_step_just_ends (s : table) (rs : list request) : Prop :=
  match rs with
  | [] => True
  | r :: rs =>
      match serve s r with
      | Ok (s', a) =>
          (a = ASwept false -> incremental_gc_running s' = true) /\ no_step_just_ends s' rs
      | _ => True
      end
  end.
