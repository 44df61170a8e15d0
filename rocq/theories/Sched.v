(** Processes, semaphores and the scheduler of the virtual machine: the linked
    lists of libgst/interp.c:1368-1985 and the primitives of
    libgst/prims.def:2856-3041 that use them.  Pointers are kept as pointers: a
    list is the two links of its Semaphore object and the nextLink / myList
    fields of the Process objects. *)
From Verif Require Import Base.
Local Open Scope Z_scope.

(** A Process object.  libgst/interp.h:202-217 (gst_process): [priority],
    [my_list], [next_link].  [alive] is false when suspendedContext is nil
    (is_process_terminating, libgst/interp.c:1847-1854).  [top] is the top of the
    stack of the process, nil or a semaphore, which becomes the answer of the
    wait it is executing.  Simplified: contexts, names and the interrupts field
    are left out. *)
Record process := mkP {
  priority : Z; my_list : option Z; next_link : option Z;
  alive : bool; top : option Z }.

(** A Semaphore (or ready list) object: libgst/interp.h:192-200 (gst_semaphore).
    Simplified: [signals] is an unbounded integer, where the code has a
    SmallInteger that 2^62 signals would overflow. *)
Record semaphore := mkS {
  first_link : option Z; last_link : option Z; signals : Z }.

(** The object memory, as far as the scheduler sees it: libgst/interp.c:1368-1386.
    Semaphores 1..9 are the ready lists, Processor processLists, the other numbers
    are the semaphores of the program.  [created] are the existing processes,
    [scheduled] is Processor activeProcess and [switch_to] is
    switch_to_process. *)
Record vm := mkVM {
  procs : Z -> process; sems : Z -> semaphore; created : list Z;
  scheduled : option Z; switch_to : option Z }.

(** Number of priorities: NUM_PRIORITIES, libgst/interp.h:59 and
    kernel/ProcSched.st:131. *)
Definition nprio : Z := 9.

(** Equality of two OOPs, None being nil; vocabulary for the C operator ==
    applied to pointers, e.g. libgst/interp.c:1402. *)
Definition oeq (a b : option Z) : bool :=
  match a, b with
  | Some x, Some y => x =? y
  | None, None => true
  | _, _ => false
  end.

(** Assignments to one field of one object, libgst/interp.c:1404-1426 for
    instance. *)
Definition with_proc (st : vm) (p : Z) (f : process -> process) : vm :=
  mkVM (fun x => if x =? p then f (procs st x) else procs st x)
       (sems st) (created st) (scheduled st) (switch_to st).
Definition with_sem (st : vm) (s : Z) (f : semaphore -> semaphore) : vm :=
  mkVM (procs st)
       (fun x => if x =? s then f (sems st x) else sems st x)
       (created st) (scheduled st) (switch_to st).
(** process->myList = v, libgst/interp.c:1423. *)
Definition set_my_list (st : vm) (p : Z) (v : option Z) : vm :=
  with_proc st p (fun r => mkP (priority r) v (next_link r) (alive r) (top r)).
(** process->nextLink = v, libgst/interp.c:1426. *)
Definition set_next (st : vm) (p : Z) (v : option Z) : vm :=
  with_proc st p (fun r => mkP (priority r) (my_list r) v (alive r) (top r)).
(** process->priority = v: kernel/Process.st:258. *)
Definition set_priority (st : vm) (p : Z) (v : Z) : vm :=
  with_proc st p (fun r => mkP v (my_list r) (next_link r) (alive r) (top r)).
(** process->suspendedContext = nil, libgst/interp.c:1464. *)
Definition set_dead (st : vm) (p : Z) : vm :=
  with_proc st p (fun r => mkP (priority r) (my_list r) (next_link r) false (top r)).
(** The top of the stack of a process, libgst/interp.c:1551 and 1705. *)
Definition set_top (st : vm) (p : Z) (v : option Z) : vm :=
  with_proc st p (fun r => mkP (priority r) (my_list r) (next_link r) (alive r) v).
(** sem->firstLink = v, libgst/interp.c:1404. *)
Definition set_first (st : vm) (s : Z) (v : option Z) : vm :=
  with_sem st s (fun r => mkS v (last_link r) (signals r)).
(** sem->lastLink = v, libgst/interp.c:1407. *)
Definition set_last (st : vm) (s : Z) (v : option Z) : vm :=
  with_sem st s (fun r => mkS (first_link r) v (signals r)).
(** sem->signals = v, libgst/interp.c:1537. *)
Definition set_signals (st : vm) (s : Z) (v : Z) : vm :=
  with_sem st s (fun r => mkS (first_link r) (last_link r) v).
(** processor->activeProcess = v, libgst/interp.c:1975. *)
Definition set_scheduled (st : vm) (v : option Z) : vm :=
  mkVM (procs st) (sems st) (created st) v (switch_to st).
(** switch_to_process = v, libgst/interp.c:1834. *)
Definition set_switch (st : vm) (v : option Z) : vm :=
  mkVM (procs st) (sems st) (created st) (scheduled st) v.

(** get_active_process, libgst/interp.c:1368-1375. *)
Definition active (st : vm) : option Z :=
  match switch_to st with Some p => Some p | None => scheduled st end.

(** The loop that looks for the predecessor of [p], libgst/interp.c:1411-1418.
    Reading the nextLink of nil is undefined. *)
Fixpoint find_prev (fuel : nat) (st : vm) (p : Z) (cur : option Z) : outcome Z :=
  match cur with
  | None => UB
  | Some c =>
      match fuel with
      | O => OutOfFuel
      | S k => if oeq (next_link (procs st c)) (Some p) then Ok c
               else find_prev k st p (next_link (procs st c))
      end
  end.

(** remove_process_from_list, libgst/interp.c:1388-1427. *)
Definition remove_from_list (st : vm) (p : Z) : outcome vm :=
  match my_list (procs st p) with
  | None => Ok (set_next st p None)
  | Some l =>
      olet st1 :=
        (if oeq (first_link (sems st l)) (Some p) then
           let st1 := set_first st l (next_link (procs st p)) in
           Ok (if oeq (last_link (sems st1 l)) (Some p)
               then set_last st1 l None else st1)
         else
           olet q := find_prev (length (created st)) st p (first_link (sems st l)) in
           let st1 := set_next st q (next_link (procs st p)) in
           Ok (if oeq (last_link (sems st1 l)) (Some p)
               then set_last st1 l (Some q) else st1)) in
      Ok (set_next (set_my_list st1 p None) p None)
  end.

(** add_first_link, libgst/interp.c:1432-1448. *)
Definition add_first_link (st : vm) (l p : Z) : outcome vm :=
  olet st1 := remove_from_list st p in
  let st2 := set_my_list st1 p (Some l) in
  let st3 := set_next st2 p (first_link (sems st2 l)) in
  let st4 := set_first st3 l (Some p) in
  Ok (match last_link (sems st4 l) with
      | None => set_last st4 l (Some p)
      | Some _ => st4
      end).

(** add_last_link, libgst/interp.c:1469-1493. *)
Definition add_last_link (st : vm) (l p : Z) : outcome vm :=
  olet st1 := remove_from_list st p in
  let st2 := set_next (set_my_list st1 p (Some l)) p None in
  Ok (match last_link (sems st2 l) with
      | None => set_first (set_last st2 l (Some p)) l (Some p)
      | Some q => set_last (set_next st2 q (Some p)) l (Some p)
      end).

(** is_empty, libgst/interp.c:1495-1502. *)
Definition is_empty (st : vm) (l : Z) : bool := oeq (first_link (sems st l)) None.

(** remove_first_link, libgst/interp.c:1726-1746.  Called on an empty list it
    would write into nil. *)
Definition remove_first_link (st : vm) (l : Z) : outcome (Z * vm) :=
  match first_link (sems st l) with
  | None => UB
  | Some p =>
      let st1 := set_first st l (next_link (procs st p)) in
      let st2 := match first_link (sems st1 l) with
                 | None => set_last st1 l None
                 | Some _ => st1
                 end in
      Ok (p, set_next (set_my_list st2 p None) p None)
  end.

(** ARRAY_AT (GET_PROCESS_LISTS (), priority), e.g. libgst/interp.c:1828: the
    ready list of a process; outside of the array for a bad priority. *)
Definition ready_list (st : vm) (p : Z) : outcome Z :=
  let k := priority (procs st p) in
  if (1 <=? k) && (k <=? nprio) then Ok k else UB.

(** activate_process, libgst/interp.c:1814-1836, for a process. *)
Definition activate (st : vm) (p : Z) : outcome vm :=
  olet st1 :=
    (if oeq (active st) (Some p) then Ok st
     else olet l := ready_list st p in add_first_link st l p) in
  Ok (set_switch st1 (Some p)).

(** The same for an OOP that may be nil. *)
Definition activate_oop (st : vm) (o : option Z) : outcome vm :=
  match o with None => Ok st | Some p => activate st p end.

(** is_process_ready, libgst/interp.c:1857-1872. *)
Definition is_ready (st : vm) (p : Z) : outcome bool :=
  olet l := ready_list st p in Ok (oeq (my_list (procs st p)) (Some l)).

(** sleep_process, libgst/interp.c:1874-1889. *)
Definition sleep (st : vm) (p : Z) : outcome vm :=
  olet l := ready_list st p in add_last_link st l p.

(** _gst_check_process_state, libgst/interp.c:1981-2029: it calls abort() if a
    ready list is broken.  [check_links] is the loop over one list; the loop
    detector counts up to the size of the object table, here up to the number of
    processes. *)
Fixpoint check_links (fuel : nat) (st : vm) (l : Z) (cur : option Z) : bool :=
  match cur with
  | None => true
  | Some p =>
      match fuel with
      | O => false
      | S k =>
          oeq (my_list (procs st p)) (Some l)
          && (negb (oeq (next_link (procs st p)) None)
              || oeq (Some p) (last_link (sems st l)))
          && check_links k st l (next_link (procs st p))
      end
  end.
Definition check_list (st : vm) (l : Z) : bool :=
  match first_link (sems st l), last_link (sems st l) with
  | None, None => true
  | Some f, Some _ => check_links (length (created st)) st l (Some f)
  | _, _ => false
  end.
Definition check_process_state (st : vm) : bool :=
  forallb (fun k => check_list st (Z.of_nat k)) (seq 1 (Z.to_nat nprio)).

(** highest_priority_process, libgst/interp.c:1925-1957, looking at the
    priorities k, k-1, ..., 1. *)
Fixpoint highest_from (k : nat) (st : vm) : outcome (option Z * vm) :=
  match k with
  | O => Ok (None, st)
  | S k' =>
      let l := Z.of_nat k in
      if is_empty st l then highest_from k' st
      else
        olet (p, st1) := remove_first_link st l in
        if oeq (scheduled st) (Some p) then
          olet st2 := add_last_link st1 l p in
          if negb (check_process_state st2) then Abort
          else if oeq (first_link (sems st2 l)) (last_link (sems st2 l))
          then highest_from k' st2
          else olet (p2, st3) := remove_first_link st2 l in Ok (Some p2, st3)
        else Ok (Some p, st1)
  end.
Definition highest_priority_process (st : vm) : outcome (option Z * vm) :=
  highest_from (Z.to_nat nprio) st.

(** next_scheduled_process, libgst/interp.c:1959-1978.  Asking whether nil is
    ready reads outside of nil. *)
Definition next_scheduled_process (st : vm) : outcome (option Z * vm) :=
  olet (o, st1) := highest_priority_process st in
  match o with
  | Some p => Ok (Some p, st1)
  | None =>
      match scheduled st1 with
      | None => UB
      | Some a =>
          olet r := is_ready st1 a in
          Ok (None, if r : bool then st1 else set_scheduled st1 None)
      end
  end.

(** ACTIVE_PROCESS_YIELD, libgst/interp.c:543-544: answers the process
    activated. *)
Definition ACTIVE_PROCESS_YIELD (st : vm) : outcome (option Z * vm) :=
  olet (o, st1) := next_scheduled_process st in
  olet st2 := activate_oop st1 o in
  Ok (o, st2).

(** active_process_yield, libgst/interp.c:1506-1516, the active process being
    [a]. *)
Definition active_process_yield (st : vm) (a : Z) : outcome vm :=
  olet (o, st1) := highest_priority_process st in
  olet r := is_ready st1 a in
  olet st2 := (if r : bool then sleep st1 a else Ok st1) in
  activate st2 (match o with None => a | Some p => p end).

(** suspend_process, libgst/interp.c:1450-1456. *)
Definition suspend_process (st : vm) (p : Z) : outcome vm :=
  olet st1 := remove_from_list st p in
  if oeq (scheduled st1) (Some p)
  then olet (_, st2) := ACTIVE_PROCESS_YIELD st1 in Ok st2
  else Ok st1.

(** resume_process, libgst/interp.c:1748-1811, with alwaysPreempt false: whether
    it succeeded, and the new state.  When there is no active process the
    comparison of the priorities is not used. *)
Definition resume_process (st : vm) (p : Z) : outcome (bool * vm) :=
  olet st1 := (if oeq (active st) (Some p) then remove_from_list st p else Ok st) in
  let preempt :=
    match active st with
    | None => true
    | Some a => negb (a =? p) && (priority (procs st a) <=? priority (procs st p))
    end in
  if negb (alive (procs st1 p)) then Ok (false, st1)
  else
    match active st1 with
    | None => olet st2 := activate st1 p in Ok (true, st2)
    | Some a =>
        olet l := ready_list st1 p in
        if preempt then
          olet st2 := (match my_list (procs st1 a) with
                       | None => Ok st1
                       | Some _ => sleep st1 a
                       end) in
          olet st3 := activate st2 p in Ok (true, st3)
        else olet st2 := add_first_link st1 l p in Ok (true, st2)
    end.

(** _gst_sync_signal, libgst/interp.c:1519-1554: the process woken up, if any.
    The semaphore is left on top of its stack. *)
Fixpoint sync_signal_loop (fuel : nat) (st : vm) (s : Z) (incr : bool)
  : outcome (option Z * vm) :=
  if is_empty st s then
    Ok (None, if incr then set_signals st s (signals (sems st s) + 1) else st)
  else
    match fuel with
    | O => OutOfFuel
    | S k =>
        olet (p, st1) := remove_first_link st s in
        olet (ok, st2) := resume_process st1 p in
        if ok : bool then Ok (Some p, set_top st2 p (Some s))
        else sync_signal_loop k st2 s incr
    end.
Definition sync_signal (st : vm) (s : Z) (incr : bool) : outcome (option Z * vm) :=
  sync_signal_loop (length (created st)) st s incr.

(** VMpr_Semaphore_notifyAll, libgst/prims.def:2858-2869: the processes woken
    up, in order. *)
Fixpoint notify_all (fuel : nat) (st : vm) (s : Z) : outcome (list Z * vm) :=
  olet (o, st1) := sync_signal st s false in
  match o with
  | None => Ok ([], st1)
  | Some p =>
      match fuel with
      | O => OutOfFuel
      | S k => olet (ps, st2) := notify_all k st1 s in Ok (p :: ps, st2)
      end
  end.

(** sync_wait_process (semaphoreOOP, nil), libgst/interp.c:1682-1724: true if the
    wait completed at once.  SET_STACKTOP works on the registers, that is on the
    process [me] that is executing the primitive.  Waiting while there is no
    active process writes into nil; when nothing can run, the VM makes up a new
    process, which is not modelled: Err. *)
Definition sync_wait (st : vm) (me s : Z) : outcome (bool * vm) :=
  if signals (sems st s) <=? 0 then
    match active st with
    | None => UB
    | Some p =>
        let st0 := set_top st me None in
        olet st1 := remove_from_list st0 p in
        olet st2 := add_last_link st1 s p in
        olet (o, st3) := ACTIVE_PROCESS_YIELD st2 in
        match o with
        | None => Err
        | Some _ => Ok (false, st3)
        end
    end
  else Ok (true, set_signals st s (signals (sems st s) - 1)).

(** What the running process asks of the scheduler.
    Wait, Signal, Notify, NotifyAll, Lock, WaitAfter: kernel/Semaphore.st and
    libgst/prims.def:2856-2929.  Suspend, Resume, Yield: libgst/prims.def:2931-2990.
    Priority: Process>>priority:, kernel/Process.st:243-264.
    Assign: the bare assignment to priority made while a process starts,
    kernel/Process.st:391.  Terminate: Process>>primTerminate,
    kernel/Process.st:154-162.  New: a Process object with a context and a
    priority, in no list (kernel/Process.st:411-412).
    Interrupt: what the interpreter does at a safe point,
    libgst/interp-bc.inl:521-531: the queued asynchronous signals, then, if the
    time slice is over, ACTIVE_PROCESS_YIELD. *)
Inductive op :=
| Wait (s : Z) | Signal (s : Z) | Notify (s : Z) | NotifyAll (s : Z) | Lock (s : Z)
| WaitAfter (s s2 : Z)
| Suspend (p : Z) | Resume (p : Z) | Yield | Terminate (p : Z)
| Priority (p k : Z) | Assign (p k : Z) | New (p k : Z)
| Interrupt (ss : list Z) (slice : bool).

(** A wait that completes: semaphore, process. *)
Definition grant := (Z * Z)%type.

(** The asynchronous signals of an Interrupt, one _gst_sync_signal each
    (_gst_do_async_signal, libgst/interp.c:1556-1560, called by
    empty_async_queue, libgst/interp.c:1610-1670). *)
Fixpoint async_signals (st : vm) (ss : list Z) : outcome (list grant * vm) :=
  match ss with
  | [] => Ok ([], st)
  | s :: r =>
      olet (o, st1) := sync_signal st s true in
      olet (g, st2) := async_signals st1 r in
      Ok ((match o with Some p => [(s, p)] | None => [] end) ++ g, st2)
  end.

(** change_process_context (switch_to_process), libgst/interp.c:1294-1366, as
    called at the next safe point, libgst/interp-bc.inl:532-545: the pending
    process becomes the active one.  Simplified: contexts are not modelled. *)
Definition switch (st : vm) : vm :=
  match switch_to st with
  | None => st
  | Some p => set_switch (set_scheduled st (Some p)) None
  end.

(** Does the object exist?  Not code: Smalltalk code cannot name an object that
    does not exist, nor wait on a ready list through these operations. *)
Definition is_proc (st : vm) (p : Z) : bool := existsb (Z.eqb p) (created st).
Definition is_sem (s : Z) : bool := nprio <? s.
Definition in_range (k : Z) : bool := (1 <=? k) && (k <=? nprio).

(** [check b k]: the operation [k] if its arguments exist.  Vocabulary. *)
Definition check {A} (b : bool) (k : outcome A) : outcome A := if b then k else Err.

(** One operation, up to the next safe point: the new state, and the waits that
    completed.  [me] is the process that executes it. *)
Definition exec (st : vm) (me : Z) (o : op) : outcome (list grant * vm) :=
  match o with
  | Wait s => check (is_sem s)
      (* libgst/prims.def:2902-2911; the receiver is on the top of the stack *)
      (olet (ok, st1) := sync_wait (set_top st me (Some s)) me s in
       Ok (if ok : bool then [(s, me)] else [], st1))
  | Signal s => check (is_sem s)
      (olet (o, st1) := sync_signal st s true in
       Ok (match o with Some p => [(s, p)] | None => [] end, st1))
  | Notify s => check (is_sem s)
      (olet (o, st1) := sync_signal st s false in
       Ok (match o with Some p => [(s, p)] | None => [] end, st1))
  | NotifyAll s => check (is_sem s)
      (olet (ps, st1) := notify_all (length (created st)) st s in
       Ok (map (fun p => (s, p)) ps, st1))
  | Lock s => check (is_sem s)
      (* libgst/prims.def:2886-2899 *)
      (Ok ([], set_signals st s 0))
  | WaitAfter s s2 => check (is_sem s && is_sem s2)
      (* libgst/prims.def:2914-2926 *)
      (olet (o, st1) := sync_signal (set_top st me (Some s)) s2 true in
       olet (ok, st2) := sync_wait st1 me s in
       Ok ((match o with Some p => [(s2, p)] | None => [] end)
             ++ (if ok : bool then [(s, me)] else []), st2))
  | Suspend p => check (is_proc st p)
      (olet st1 := suspend_process st p in Ok ([], st1))
  | Resume p => check (is_proc st p)
      (* when it fails, an error is signalled and the program goes on,
         kernel/Process.st:455-472 *)
      (olet (_, st1) := resume_process st p in Ok ([], st1))
  | Yield =>
      (* libgst/prims.def:2978-2990, sent to Processor activeProcess *)
      match active st with
      | None => Ok ([], st)
      | Some a => olet st1 := active_process_yield st a in Ok ([], st1)
      end
  | Terminate p => check (is_proc st p)
      (olet st1 := suspend_process (set_dead st p) p in Ok ([], st1))
  | Priority p k => check (is_proc st p && in_range k)
      (let old := priority (procs st p) in
       let st1 := set_priority st p k in
       if oeq (my_list (procs st p)) (Some old)
       then olet (_, st2) := resume_process st1 p in Ok ([], st2)
       else Ok ([], st1))
  | Assign p k => check (is_proc st p && in_range k)
      (Ok ([], set_priority st p k))
  | New p k => check (negb (is_proc st p) && in_range k)
      (Ok ([], mkVM (fun x => if x =? p then mkP k None None true None else procs st x)
                    (sems st) (p :: created st) (scheduled st) (switch_to st)))
  | Interrupt ss slice => check (forallb is_sem ss)
      (olet (g, st1) := async_signals st ss in
       olet st2 := (if slice : bool
                    then olet (_, st2) := ACTIVE_PROCESS_YIELD st1 in Ok st2
                    else Ok st1) in
       Ok (g, st2))
  end.

(** One operation by the running process, and the switch to the process it
    activated.  With no running process, only [UB] can follow: the interpreter
    goes on executing a context that belongs to no active process. *)
Definition step (st : vm) (o : op) : outcome (list grant * vm) :=
  match scheduled st with
  | None => UB
  | Some me => olet (g, st1) := exec st me o in Ok (g, switch st1)
  end.

(** A history, with what each operation granted. *)
Fixpoint run (st : vm) (h : list op) : outcome (list (op * list grant) * vm) :=
  match h with
  | [] => Ok ([], st)
  | o :: r =>
      olet (g, st1) := step st o in
      olet (t, st2) := run st1 r in
      Ok ((o, g) :: t, st2)
  end.

(** The state in which a program starts: one process, active, alone in the ready
    list of its priority, and semaphores with an initial number of signals
    (semaphore_new, libgst/interp.c:2077-2087; _gst_init_process_system,
    libgst/interp.c:2089-2118; create_callin_process, libgst/interp.c:2120-2155). *)
Definition initial (p k : Z) (sig : Z -> Z) : vm :=
  mkVM (fun x => if x =? p then mkP k (Some k) None true None
                 else mkP k None None false None)
       (fun s => if s =? k then mkS (Some p) (Some p) 0 else mkS None None (sig s))
       [p] (Some p) None.
