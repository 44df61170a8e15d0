(** RecursionLock and Semaphore>>critical:, kernel/RecursionLock.st and
    kernel/Semaphore.st, and SharedQueue, kernel/SharedQueue.st.

    Processes take turns in any order, one message at a time.  The semaphores are
    the counters and queues that SchedSpec.v specifies and that Sched.v is proved
    to implement. *)
From Verif Require Import Base.
Local Open Scope Z_scope.

(** ** RecursionLock *)

(** What a process does: something, or [lock critical: [...]]. *)
Inductive act := Work | Critical (body : list act).

(** Where the code being executed is: at the base of the process, in a nested
    critical: of the owner (kernel/RecursionLock.st:94, isOwnerProcess), or in the
    critical: that got the semaphore (kernel/RecursionLock.st:97-100). *)
Inductive kind := Base | Nested | Outer.
Definition frame := (kind * list act)%type.

(** Where a process is in critical:, kernel/RecursionLock.st:89-101 and
    kernel/Semaphore.st:53-75.
    Want: about to send wait; Blocked: waiting; Got: the wait is over and
    [true] if it answered the semaphore; Release: about to send signal from the
    ensure: block.  The flag of Want and Blocked says that the wait is the one
    sent again by queueInterrupt: (kernel/Process.st:324 and 331-342), whose answer
    nobody looks at: the wait in critical: answers nil in that case
    (kernel/BlkClosure.st:161-181, libgst/interp.c:1540-1553). *)
Inductive pc :=
| Normal | Want (again : bool) (b : list act) | Blocked (again : bool) (b : list act)
| Got (ok : bool) (b : list act) | Release.

Record proc := mkP { at_ : pc; stack : list frame }.

Record lock := mkL {
  signals : Z;                 (* of the semaphore *)
  waiters : list Z;
  owner : option Z;
  procs : Z -> proc }.

(** The process takes a step; it receives queueInterrupt:, terminate or resume. *)
Inductive event := Step (p : Z) | Interrupt (p : Z) | Terminate (p : Z) | Resume (p : Z).

Definition upd {A} (f : Z -> A) (k : Z) (v : A) : Z -> A := fun x => if x =? k then v else f x.

Definition is_owner (st : lock) (p : Z) : bool :=
  match owner st with Some q => q =? p | None => false end.

(** [goto st p pc s]: process [p] goes on at [pc] with stack [s].  Vocabulary. *)
Definition goto (st : lock) (p : Z) (c : pc) (s : list frame) : lock :=
  mkL (signals st) (waiters st) (owner st) (upd (procs st) p (mkP c s)).

(** Semaphore>>signal: the first waiter, if any, gets it (see SchedSpec.v,
    spec_signal). *)
Definition signal (st : lock) : lock :=
  match waiters st with
  | [] => mkL (signals st + 1) [] (owner st) (procs st)
  | w :: r =>
      let q := procs st w in
      mkL (signals st) r (owner st)
          (upd (procs st) w
             (match at_ q with
              | Blocked again b => mkP (Got (negb again) b) (stack q)
              | _ => q
              end))
  end.

(** A step of process [p].
    critical:, kernel/RecursionLock.st:89-101: the test of isOwnerProcess; then
    Semaphore>>critical:, kernel/Semaphore.st:53-75.  The ensure: blocks,
    kernel/RecursionLock.st:100 and kernel/Semaphore.st:74, are two steps. *)
Definition step_proc (st : lock) (p : Z) : outcome lock :=
  let me := procs st p in
  let s := stack me in
  match at_ me with
  | Normal =>
      match s with
      | [] => Err
      | (k, Work :: r) :: t => Ok (goto st p Normal ((k, r) :: t))
      | (k, Critical b :: r) :: t =>
          if is_owner st p then Ok (goto st p Normal ((Nested, b) :: (k, r) :: t))
          else Ok (goto st p (Want false b) ((k, r) :: t))
      | (Outer, []) :: t =>
          Ok (goto (mkL (signals st) (waiters st) None (procs st)) p Release t)
      | (_, []) :: t => Ok (goto st p Normal t)
      end
  | Want again b =>
      if 0 <? signals st
      then Ok (goto (mkL (signals st - 1) (waiters st) (owner st) (procs st)) p (Got (negb again) b) s)
      else Ok (goto (mkL (signals st) (waiters st ++ [p]) (owner st) (procs st)) p (Blocked again b) s)
  | Blocked _ _ => Err
  | Got true b =>
      Ok (goto (mkL (signals st) (waiters st) (Some p) (procs st)) p Normal ((Outer, b) :: s))
  | Got false b => Ok (goto st p Normal s)
  | Release => Ok (signal (goto st p Normal s))
  end.

Definition leave (st : lock) (p : Z) : lock :=
  mkL (signals st) (filter (fun x => negb (x =? p)) (waiters st)) (owner st) (procs st).

(** Unwinding: nothing but the ensure: blocks remains to be done
    (libgst/interp.c:1080-1187). *)
Definition unwound (s : list frame) : list frame := map (fun f => (fst f, [])) s.

(** terminate, kernel/Process.st:117-136: ProcessBeingTerminated is signalled in
    the process.  While it waits, ownedSem is nil; once the wait has answered, the
    handler at kernel/Semaphore.st:70-72 sees it.  An ensure: block that is already
    running is not an unwind context any more and is cut short
    (libgst/interp.c:1066-1067). *)
Definition terminate (st : lock) (p : Z) : lock :=
  let me := procs st p in
  let s := unwound (stack me) in
  match at_ me with
  | Normal | Want _ _ | Got false _ => goto st p Normal s
  | Blocked _ _ => goto (leave st p) p Normal s
  | Got true _ => goto st p Release s
  | Release => goto st p Normal s
  end.

(** queueInterrupt: with a block that leaves the lock alone,
    kernel/Process.st:297-329: if the process is waiting it is woken up, evaluates
    the block and waits again. *)
Definition interrupt (st : lock) (p : Z) : lock :=
  match at_ (procs st p) with
  | Blocked _ b => goto (leave st p) p (Want true b) (stack (procs st p))
  | _ => st
  end.

(** Process>>resume of a process that waits: the wait answers nil
    (libgst/interp.c:1695-1702 and 1747-1749). *)
Definition resume (st : lock) (p : Z) : lock :=
  match at_ (procs st p) with
  | Blocked _ b => goto (leave st p) p (Got false b) (stack (procs st p))
  | _ => st
  end.

Definition step (st : lock) (e : event) : outcome lock :=
  match e with
  | Step p => step_proc st p
  | Interrupt p => Ok (interrupt st p)
  | Terminate p => Ok (terminate st p)
  | Resume p => Ok (resume st p)
  end.

Fixpoint run (st : lock) (h : list event) : outcome lock :=
  match h with
  | [] => Ok st
  | e :: r => olet st1 := step st e in run st1 r
  end.

(** RecursionLock new, kernel/RecursionLock.st:103-106 and
    kernel/Semaphore.st:43-51; each process has a program. *)
Definition new_lock (prog : Z -> list act) : lock :=
  mkL 1 [] None (fun p => mkP Normal [(Base, prog p)]).
