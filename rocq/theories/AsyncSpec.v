(** What is expected of asynchronous calls. *)
From Verif Require Import Base Async.
Local Open Scope Z_scope.

(** The calls of [l] that thread [i] posted, in order. *)
Definition sent_by (i : Z) (l : list call) : list Z :=
  map snd (filter (fun c => fst c =? i) l).

Definition prefix {A} (a b : list A) : Prop := exists c, b = a ++ c.

(** How many times an entry is in a list of entries. *)
Definition times (e : Z) (l : list Z) : nat := count_occ Z.eq_dec l e.

(** How many times the entry [e] is posted in a history of uninterrupted posts,
    given what the threads have to post. *)
Fixpoint posts (e : Z) (prog : Z -> list Z) (h : list sevent) : nat :=
  match h with
  | [] => 0
  | SVm :: r => posts e prog r
  | SPoster i :: r =>
      match prog i with
      | [] => posts e prog r
      | x :: t => (if (x =? e)%Z then 1 else 0) + posts e (upd prog i t) r
      end
  end%nat.

(** The posters have nothing left to do, the VM is not draining the queue, and the
    queue is empty. *)
Definition quiet (st : sstate) : Prop :=
  (forall i, stodo (sposters st i) = [] /\ sat (sposters st i) = SIdle) /\
  svm st = SAway /\ shead st = Tail.
