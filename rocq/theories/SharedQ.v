(** SharedQueue, kernel/SharedQueue.st.

    Any number of processes send nextPut:, next and peek to one queue, and take turns
    in any order.  The two semaphores are the counters and queues specified in
    SchedSpec.v.  Processes are not terminated, interrupted or resumed while they wait
    here: for that see Locks.v.  The queue is that made by SharedQueue new, an
    OrderedCollection (see OrdColl.v). *)
From Verif Require Import Base.
Local Open Scope Z_scope.

Inductive op := Put (v : Z) | Next | Peek.

(** Where a process is in nextPut:, next or peek, kernel/SharedQueue.st:65-94.
    BlockV: waiting on valueReady; GotV: past it; BlockM: waiting on queueSem;
    InM: owns queueSem, about to touch the collection; OutM: has done so, and [r] is the
    element it found; SigV: about to signal valueReady. *)
Inductive pc := Idle | BlockV | GotV | BlockM | InM | OutM (r : option Z) | SigV (r : option Z).

(** [todo]: the operations that the process has still to do, the current one first;
    [answers]: what its next and peek answered. *)
Record thread := mkT { at_ : pc; todo : list op; answers : list Z }.

Record shared := mkS {
  msig : Z; mwait : list nat;        (* queueSem *)
  vsig : Z; vwait : list nat;        (* valueReady *)
  queue : list Z;
  threads : list thread }.

(** What happens to the collection. *)
Inductive obs := Added (i : nat) (v : Z) | Removed (i : nat) (v : Z) | Looked (i : nat) (v : Z).

Fixpoint set_nth {A} (i : nat) (x : A) (l : list A) : list A :=
  match l, i with
  | [], _ => []
  | _ :: t, O => x :: t
  | y :: t, S j => y :: set_nth j x t
  end.

Definition go (st : shared) (i : nat) (t : thread) : shared :=
  mkS (msig st) (mwait st) (vsig st) (vwait st) (queue st) (set_nth i t (threads st)).

Definition move (t : thread) (c : pc) : thread := mkT c (todo t) (answers t).

(** queueSem wait, as the first thing in critical: (kernel/Semaphore.st:70). *)
Definition wait_m (st : shared) (i : nat) (t : thread) : shared :=
  if 0 <? msig st
  then go (mkS (msig st - 1) (mwait st) (vsig st) (vwait st) (queue st) (threads st)) i (move t InM)
  else go (mkS (msig st) (mwait st ++ [i]) (vsig st) (vwait st) (queue st) (threads st)) i (move t BlockM).

(** queueSem signal, at the end of critical: (kernel/Semaphore.st:74). *)
Definition signal_m (st : shared) : shared :=
  match mwait st with
  | [] => mkS (msig st + 1) [] (vsig st) (vwait st) (queue st) (threads st)
  | w :: r =>
      let st1 := mkS (msig st) r (vsig st) (vwait st) (queue st) (threads st) in
      match nth_error (threads st) w with
      | Some t => go st1 w (move t InM)
      | None => st1
      end
  end.

(** valueReady wait and signal, kernel/SharedQueue.st:70, 80, 90, 92. *)
Definition wait_v (st : shared) (i : nat) (t : thread) : shared :=
  if 0 <? vsig st
  then go (mkS (msig st) (mwait st) (vsig st - 1) (vwait st) (queue st) (threads st)) i (move t GotV)
  else go (mkS (msig st) (mwait st) (vsig st) (vwait st ++ [i]) (queue st) (threads st)) i (move t BlockV).

Definition signal_v (st : shared) : shared :=
  match vwait st with
  | [] => mkS (msig st) (mwait st) (vsig st + 1) [] (queue st) (threads st)
  | w :: r =>
      let st1 := mkS (msig st) (mwait st) (vsig st) r (queue st) (threads st) in
      match nth_error (threads st) w with
      | Some t => go st1 w (move t GotV)
      | None => st1
      end
  end.

Definition set_queue (st : shared) (q : list Z) : shared :=
  mkS (msig st) (mwait st) (vsig st) (vwait st) q (threads st).

(** The operation returns. *)
Definition finish (t : thread) (r : option Z) : thread :=
  mkT Idle (tl (todo t)) (match r with Some v => answers t ++ [v] | None => answers t end).

(** A step of process [i]; kernel/SharedQueue.st:65-94.  [Err]: it has nothing to do or
    waits.  [UB]: removeFirst or first of an empty collection, an error raised while
    queueSem is held. *)
Definition step (st : shared) (i : nat) : outcome (shared * list obs) :=
  match nth_error (threads st) i with
  | None => Err
  | Some t =>
      match todo t with
      | [] => Err
      | o :: _ =>
          match at_ t with
          | Idle => match o with
                    | Put _ => Ok (wait_m st i t, [])
                    | _ => Ok (wait_v st i t, [])
                    end
          | BlockV | BlockM => Err
          | GotV => Ok (wait_m st i t, [])
          | InM =>
              match o with
              | Put v => Ok (go (set_queue st (queue st ++ [v])) i (move t (OutM None)), [Added i v])
              | Next => match queue st with
                        | [] => UB
                        | v :: q => Ok (go (set_queue st q) i (move t (OutM (Some v))), [Removed i v])
                        end
              | Peek => match queue st with
                        | [] => UB
                        | v :: q => Ok (go st i (move t (OutM (Some v))), [Looked i v])
                        end
              end
          | OutM r =>
              match o with
              | Next => Ok (signal_m (go st i (finish t r)), [])
              | _ => Ok (signal_m (go st i (move t (SigV r))), [])
              end
          | SigV r => Ok (signal_v (go st i (finish t r)), [])
          end
      end
  end.

Fixpoint run (st : shared) (h : list nat) : outcome (shared * list obs) :=
  match h with
  | [] => Ok (st, [])
  | i :: h' =>
      olet (st1, o) := step st i in
      olet (st2, os) := run st1 h' in
      Ok (st2, o ++ os)
  end.

(** SharedQueue new, kernel/SharedQueue.st:43-48 and 96-101; the process [i] will do
    [nth i progs]. *)
Definition new_queue (progs : list (list op)) : shared :=
  mkS 1 [] 0 [] [] (map (fun p => mkT Idle p []) progs).
