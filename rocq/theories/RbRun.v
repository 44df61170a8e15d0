(** Histories of calls on the registries of RbTree.v. *)
From Coq Require Import ZArith List Bool.
From Verif Require Import Base RbTree RbSpec.
Import ListNotations.
Local Open Scope Z_scope.

(** a call, with the address xmalloc answers should it be called;
    libgst/callin.c:978-1090 *)
Inductive op := MReg (a k : Z) | MUnreg (k : Z).

(** the call without the allocator's choice; not code *)
Definition callOf (o : op) : call :=
  match o with MReg _ k => Reg k | MUnreg k => Unreg k end.

(** one call on the registry of objects, libgst/callin.c:978-1039.  [Err]: the
    address is NULL or in use, which xmalloc never answers. *)
Definition step (fuel : nat) (o : op) (s : state) : outcome state :=
  match o with
  | MReg a k =>
    if a =? 0 then Err
    else match heap s a with Some _ => Err | None => register fuel a k s end
  | MUnreg k => unregister fuel k s
  end.

(** one call on the registry of arrays, libgst/callin.c:1042-1090;
    [_gst_unregister_oop_array] is as [_gst_unregister_oop] *)
Definition stepA (fuel : nat) (o : op) (s : state) : outcome state :=
  match o with
  | MReg a k =>
    if a =? 0 then Err
    else match heap s a with Some _ => Err | None => registerArray fuel a k s end
  | MUnreg k => unregister fuel k s
  end.

(** a history; not code *)
Fixpoint run (fuel : nat) (h : list op) (s : state) : outcome state :=
  match h with
  | [] => Ok s
  | o :: h => olet s := step fuel o s in run fuel h s
  end.

(** a history of the registry of arrays; not code *)
Fixpoint runA (fuel : nat) (h : list op) (s : state) : outcome state :=
  match h with
  | [] => Ok s
  | o :: h => olet s := stepA fuel o s in runA fuel h s
  end.

(** the usage count found by the search of libgst/callin.c:1024-1027, 0 if
    there is no entry *)
Definition usageOf (fuel : nat) (k : Z) (s : state) : outcome Z :=
  olet p := find fuel k (root s) (heap s) in
  if p =? 0 then Ok 0 else olet n := get (heap s) p in Ok (usage n).
