(** What the registry of objects should do, independently of trees. *)
From Coq Require Import ZArith List.
Import ListNotations.
Local Open Scope Z_scope.

(** a call of the plug-in interface on an object, libgst/callin.c:978-1039 *)
Inductive call := Reg (k : Z) | Unreg (k : Z).

(** how many registrations of the object [k] are outstanding; specification of
    libgst/callin.c:978-1039 *)
Definition refs (k : Z) (h : list call) : nat :=
  fold_left (fun n c =>
    match c with
    | Reg k' => if k =? k' then S n else n
    | Unreg k' => if k =? k' then pred n else n
    end) h 0%nat.

(** no array is registered while it is already registered; specification,
    libgst/callin.c:1042-1070 *)
Fixpoint once (past : list call) (h : list call) : Prop :=
  match h with
  | [] => True
  | Reg k :: h => refs k past = 0%nat /\ once (past ++ [Reg k]) h
  | Unreg k :: h => once (past ++ [Unreg k]) h
  end.
