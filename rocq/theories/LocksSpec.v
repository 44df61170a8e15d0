(** What is expected of a lock. *)
From Verif Require Import Base Locks.
Local Open Scope Z_scope.

(** Process [p] is executing the block of an outermost critical:. *)
Definition inside (st : lock) (p : Z) : Prop := exists b, In (Outer, b) (stack (procs st p)).

(** It is inside, or it has been given the lock and is about to enter, or it has
    left and is about to give the lock back. *)
Definition busy (st : lock) (p : Z) : Prop :=
  inside st p \/ (exists b, at_ (procs st p) = Got true b) \/ at_ (procs st p) = Release.

Definition waits (st : lock) (p : Z) : Prop := exists g b, at_ (procs st p) = Blocked g b.

(** How deep process [p] is in critical: blocks. *)
Definition depth (st : lock) (p : Z) : nat :=
  length (filter (fun f => match fst f with Base => false | _ => true end) (stack (procs st p))).

(** Histories in which processes only run, or are resumed while they wait. *)
Definition plain (e : event) : bool :=
  match e with Step _ | Resume _ => true | _ => false end.

(** Histories without queueInterrupt:, in which no process is terminated between the
    end of a critical section and the signal that releases the lock. *)
Fixpoint gentle (st : lock) (h : list event) : Prop :=
  match h with
  | [] => True
  | e :: r =>
      (match e with
       | Interrupt _ => False
       | Terminate p => at_ (procs st p) <> Release
       | _ => True
       end) /\
      match step st e with Ok st1 => gentle st1 r | _ => True end
  end.
