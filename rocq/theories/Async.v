(** The queues of asynchronous calls, libgst/interp.c:1562-1670.

    Threads take turns one memory access at a time, in any order; memory is
    sequentially consistent and the __sync operations are atomic.  A call is a
    pair: who posted it (only used to state the order) and what is to be done. *)
From Verif Require Import Base.
Local Open Scope Z_scope.

(** NULL, the address of queued_async_signals_tail, and any other entry
    (libgst/interp.c:244-246). *)
Inductive ptr := Null | Tail | Node (a : Z).

(** Pointer comparison, as done by __sync_bool_compare_and_swap. *)
Definition ptr_eqb (a b : ptr) : bool :=
  match a, b with
  | Null, Null | Tail, Tail => true
  | Node x, Node y => x =? y
  | _, _ => false
  end.

Definition call := (Z * Z)%type.

(** async_queue_entry, libgst/interp.h:331-337; [what] stands for func and data. *)
Record entry := mkE { what : call; next : ptr }.

Definition upd {A} (f : Z -> A) (k : Z) (v : A) : Z -> A := fun x => if x =? k then v else f x.

(** ** _gst_async_call *)

(** Where a poster is in _gst_async_call (libgst/interp.c:1590-1602): between two
    calls; with an entry, about to set its next field from the head; about to
    do the compare-and-swap. *)
Inductive pc := Idle | Link (a : Z) | Swing (a : Z).
Record poster := mkT { todo : list Z; at_ : pc }.

(** Where the VM is in the first half of empty_async_queue
    (libgst/interp.c:1617-1638): elsewhere; reversing; walking the reversed list. *)
Inductive vpc := Away | Rev (sig rev : ptr) | Run (sig : ptr).

Record state := mkSt {
  heap : Z -> option entry;      (* None: not allocated *)
  head : ptr;                    (* queued_async_signals *)
  posters : Z -> poster;
  vm : vpc;
  log : list call }.             (* the calls made, in order *)

(** Someone takes a step.  [Poster i a]: [a] is what malloc answers, if it is
    called; any address that is not in use. *)
Inductive event := Poster (i a : Z) | Vm.

(** One step of _gst_async_call in thread [i], libgst/interp.c:1590-1602.  The
    entry being linked is private to the thread, so reading the head and setting
    next is one step.  Not modelled: failure of xmalloc, _gst_wakeup and the
    exception flag. *)
Definition post_step (st : state) (i a : Z) : outcome state :=
  let p := posters st i in
  match at_ p with
  | Idle =>
      match todo p, heap st a with
      | c :: _, None =>
          Ok (mkSt (upd (heap st) a (Some (mkE (i, c) Null))) (head st)
                   (upd (posters st) i (mkT (todo p) (Link a))) (vm st) (log st))
      | _, _ => Err
      end
  | Link e =>
      match heap st e with
      | None => UB
      | Some n =>
          Ok (mkSt (upd (heap st) e (Some (mkE (what n) (head st)))) (head st)
                   (upd (posters st) i (mkT (todo p) (Swing e))) (vm st) (log st))
      end
  | Swing e =>
      match heap st e with
      | None => UB
      | Some n =>
          if ptr_eqb (head st) (next n)
          then Ok (mkSt (heap st) (Node e)
                        (upd (posters st) i (mkT (tl (todo p)) Idle)) (vm st) (log st))
          else Ok (mkSt (heap st) (head st)
                        (upd (posters st) i (mkT (todo p) (Link e))) (vm st) (log st))
      end
  end.

(** One step of the first half of empty_async_queue, libgst/interp.c:1617-1638.
    The call itself is one step: whatever it does to this queue, it does by
    posting, and a poster may do the same next. *)
Definition vm_step (st : state) : outcome state :=
  match vm st with
  | Away => Ok (mkSt (heap st) Tail (posters st) (Rev (head st) Tail) (log st))
  | Rev Tail rev => Ok (mkSt (heap st) (head st) (posters st) (Run rev) (log st))
  | Rev (Node e) rev =>
      match heap st e with
      | None => UB
      | Some n => Ok (mkSt (upd (heap st) e (Some (mkE (what n) rev))) (head st) (posters st)
                           (Rev (next n) (Node e)) (log st))
      end
  | Run Tail => Ok (mkSt (heap st) (head st) (posters st) Away (log st))
  | Run (Node e) =>
      match heap st e with
      | None => UB
      | Some n => Ok (mkSt (upd (heap st) e None) (head st) (posters st)
                           (Run (next n)) (log st ++ [what n]))
      end
  | Rev Null _ | Run Null => UB
  end.

Definition step (st : state) (ev : event) : outcome state :=
  match ev with
  | Poster i a => post_step st i a
  | Vm => vm_step st
  end.

Fixpoint run (st : state) (h : list event) : outcome state :=
  match h with
  | [] => Ok st
  | e :: r => olet st1 := step st e in run st1 r
  end.

(** Nothing posted yet; each thread has its list of calls to post
    (libgst/interp.c:244-246). *)
Definition start (prog : Z -> list Z) : state :=
  mkSt (fun _ => None) Tail (fun i => mkT (prog i) Idle) Away [].

(** ** _gst_async_call_internal *)

(** Where a poster of entry [e] is, libgst/interp.c:1575-1588: about to read the
    head; about to compare-and-swap the next field of the entry; about to read the
    next field back; about to compare-and-swap the head. *)
Inductive spc := SIdle | SRead (e : Z) | SMark (e : Z) (h : ptr) | SBack (e : Z)
  | SSwing (e : Z) (n : ptr).
Record sposter := mkSP { stodo : list Z; sat : spc }.

(** Where the VM is in the second half of empty_async_queue
    (libgst/interp.c:1640-1669). *)
Inductive svpc := SAway | SRev (sig rev : ptr) | SRun (sig : ptr) | SCall (e : Z) (nx : ptr).

(** Entries are static: only their next field changes.  The data field, which a
    handler writes and the VM resets, is not modelled. *)
Record sstate := mkSS {
  snext : Z -> ptr;
  shead : ptr;                   (* queued_async_signals_sig *)
  sposters : Z -> sposter;
  svm : svpc;
  slog : list Z }.               (* the entries called, in order *)

Inductive sevent := SPoster (i : Z) | SVm.

(** One step of _gst_async_call_internal, libgst/interp.c:1575-1588. *)
Definition spost_step (st : sstate) (i : Z) : outcome sstate :=
  let p := sposters st i in
  let goto nx hd todo pc :=
    Ok (mkSS nx hd (upd (sposters st) i (mkSP todo pc)) (svm st) (slog st)) in
  match sat p with
  | SIdle =>
      match stodo p with
      | e :: r => goto (snext st) (shead st) r (SRead e)
      | [] => Err
      end
  | SRead e => goto (snext st) (shead st) (stodo p) (SMark e (shead st))
  | SMark e h =>
      if ptr_eqb (snext st e) Null
      then goto (upd (snext st) e h) (shead st) (stodo p) (SBack e)
      else goto (snext st) (shead st) (stodo p) SIdle
  | SBack e => goto (snext st) (shead st) (stodo p) (SSwing e (snext st e))
  | SSwing e n =>
      if ptr_eqb (shead st) n
      then goto (snext st) (Node e) (stodo p) SIdle
      else goto (snext st) (shead st) (stodo p) (SRead e)
  end.

(** One step of the second half of empty_async_queue, libgst/interp.c:1640-1669. *)
Definition svm_step (st : sstate) : outcome sstate :=
  let goto nx hd pc lg := Ok (mkSS nx hd (sposters st) pc lg) in
  match svm st with
  | SAway => goto (snext st) Tail (SRev (shead st) Tail) (slog st)
  | SRev Tail rev => goto (snext st) (shead st) (SRun rev) (slog st)
  | SRev (Node e) rev =>
      goto (upd (snext st) e rev) (shead st) (SRev (snext st e) (Node e)) (slog st)
  | SRun Tail => goto (snext st) (shead st) SAway (slog st)
  | SRun (Node e) =>
      goto (upd (snext st) e Null) (shead st) (SCall e (snext st e)) (slog st)
  | SCall e nx => goto (snext st) (shead st) (SRun nx) (slog st ++ [e])
  | SRev Null _ | SRun Null => UB
  end.

Definition sstep (st : sstate) (ev : sevent) : outcome sstate :=
  match ev with
  | SPoster i => spost_step st i
  | SVm => svm_step st
  end.

Fixpoint srun (st : sstate) (h : list sevent) : outcome sstate :=
  match h with
  | [] => Ok st
  | e :: r => olet st1 := sstep st e in srun st1 r
  end.

Definition sstart (prog : Z -> list Z) : sstate :=
  mkSS (fun _ => Null) Tail (fun i => mkSP (prog i) SIdle) SAway [].

(** A post that nothing interrupts: thread [i] runs alone for five steps, or
    three if the entry is already queued (libgst/interp.c:1575-1588). *)
Definition solo (st : sstate) (i : Z) : outcome sstate :=
  olet st1 := spost_step st i in
  olet st2 := spost_step st1 i in
  olet st3 := spost_step st2 i in
  match sat (sposters st3 i) with
  | SIdle => Ok st3
  | _ =>
      olet st4 := spost_step st3 i in
      spost_step st4 i
  end.

(** Uninterrupted posts among the steps of the VM. *)
Fixpoint crun (st : sstate) (h : list sevent) : outcome sstate :=
  match h with
  | [] => Ok st
  | SPoster i :: r => olet st1 := solo st i in crun st1 r
  | SVm :: r => olet st1 := svm_step st in crun st1 r
  end.
