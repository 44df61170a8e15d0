(** The object table: allocation of OOPs and the incremental sweep,
    libgst/oop.inl:183-225 and libgst/oop.c:1278-1475.

    A slot is named by its distance from _gst_mem.ot; the slots below 0 hold
    nil, true, false and the characters, which are always alive
    (libgst/oop.c:441-468), and the model only knows about slot -1 that it stops
    there.  The table has [size] slots; touching a slot past its end is [UB].
    What an object contains is a number, [cont]: moving the object elsewhere
    keeps it.  The native-code translator, the lists of weak objects, the count
    of free OOPs and the growth of the table are left out. *)
From Verif Require Import Base.
Local Open Scope Z_scope.

(** libgst/gstpriv.h:265-343 *)
Definition F_REACHABLE : Z := 8388608.   (* 0x800000 *)
Definition F_SPACES : Z := 393216.       (* 0x60000 *)
Definition F_EVEN : Z := 262144.         (* 0x40000 *)
Definition F_ODD : Z := 131072.          (* 0x20000 *)
Definition F_POOLED : Z := 65536.        (* 0x10000 *)
Definition F_OLD : Z := 256.             (* 0x100 *)

(** The part of struct memory_space that is used here, libgst/oop.h:196-236. *)
Record table := Table {
  flags : Z -> Z;            (* ot[i].flags *)
  cont : Z -> Z;             (* what ot[i].object points to *)
  size : Z;                  (* ot_size *)
  last_allocated : Z;        (* last_allocated_oop - ot *)
  last_swept : Z;            (* last_swept_oop - ot *)
  next_to_sweep : Z;         (* next_oop_to_sweep - ot *)
  live_flags : Z;
  active_flag : Z
}.

(** The table at start, libgst/oop.c:345-349 and 486-488. *)
Definition empty_table (n : Z) : table :=
  Table (fun _ => 0) (fun _ => 0) n (-1) (-1) (-1) (Z.lor F_EVEN F_OLD) F_EVEN.

(** (f & mask) != 0 *)
Definition any (f mask : Z) : bool := negb (Z.land f mask =? 0).

Definition set_flags (s : table) (i f : Z) : table :=
  Table (fun j => if j =? i then f else flags s j) (cont s) (size s) (last_allocated s)
        (last_swept s) (next_to_sweep s) (live_flags s) (active_flag s).
Definition set_last_allocated (s : table) (i : Z) : table :=
  Table (flags s) (cont s) (size s) i
        (last_swept s) (next_to_sweep s) (live_flags s) (active_flag s).
Definition set_last_swept (s : table) (i : Z) : table :=
  Table (flags s) (cont s) (size s) (last_allocated s)
        i (next_to_sweep s) (live_flags s) (active_flag s).
Definition set_next_to_sweep (s : table) (i : Z) : table :=
  Table (flags s) (cont s) (size s) (last_allocated s)
        (last_swept s) i (live_flags s) (active_flag s).
Definition set_live_flags (s : table) (f : Z) : table :=
  Table (flags s) (cont s) (size s) (last_allocated s)
        (last_swept s) (next_to_sweep s) f (active_flag s).

(** IS_OOP_VALID_GC, libgst/oop.inl:79-80 *)
Definition is_valid_gc (s : table) (i : Z) : bool := any (flags s i) (live_flags s).

(** IS_OOP_VALID, libgst/oop.inl:85-89 *)
Definition is_valid (s : table) (i : Z) : bool :=
  any (flags s i) (live_flags s)
  || (any (flags s i) F_OLD && ((i <=? last_swept s) || (next_to_sweep s <? i))).

(** oop->flags &= ~F_REACHABLE *)
Definition unmark (s : table) (i : Z) : table := set_flags s i (Z.ldiff (flags s i) F_REACHABLE).

(** _gst_sweep_oop, libgst/oop.c:1438-1474.  The storage of the object is given
    back to its heap: not modelled. *)
Definition sweep_oop (s : table) (i : Z) : table :=
  if flags s i =? 0 then s else set_flags s i 0.

(** incremental_gc_running, libgst/oop.c:1277-1281 *)
Definition incremental_gc_running (s : table) : bool := last_swept s <? next_to_sweep s.

(** _gst_finished_incremental_gc, libgst/oop.c:1316-1337; the statistics and
    the native code are left out. *)
Definition finished_incremental_gc (s : table) : table :=
  if any (live_flags s) F_OLD then s
  else set_live_flags s (Z.lor (Z.ldiff (live_flags s) F_REACHABLE) F_OLD).

(** The else branch of the test in the loops of libgst/oop.c:1302-1309 and
    1357-1362: a dead OOP is met. *)
Definition free_oop (s : table) (i : Z) : table :=
  let s := sweep_oop s i in
  if i =? last_allocated s then set_last_allocated s (last_allocated s - 1) else s.

(** The loop of _gst_finish_incremental_gc, libgst/oop.c:1294-1310, for the [n]
    OOPs down to the one after [last_swept].  It answers where it stopped. *)
Fixpoint finish_loop (n : nat) (s : table) (i : Z) : table * Z :=
  match n with
  | O => (s, i)
  | S n => if is_valid_gc s i then finish_loop n (unmark s i) (i - 1)
           else finish_loop n (free_oop s i) (i - 1)
  end.

(** _gst_finish_incremental_gc, libgst/oop.c:1283-1314 *)
Definition finish_incremental_gc (s : table) : table :=
  let '(s', i) := finish_loop (Z.to_nat (next_to_sweep s - last_swept s)) s (next_to_sweep s) in
  finished_incremental_gc (set_next_to_sweep s' i).

(** INCREMENTAL_SWEEP_STEP, libgst/oop.c:62 *)
Definition INCREMENTAL_SWEEP_STEP : Z := 100.

(** The loop of _gst_incremental_gc_step, libgst/oop.c:1350-1369; [k] OOPs have
    been freed so far.  [inl]: the step returns false from inside the loop. *)
Fixpoint step_loop (n : nat) (k : Z) (s : table) (i : Z) : table + table * Z :=
  match n with
  | O => inr (s, i)
  | S n =>
      if is_valid_gc s i then step_loop n k (unmark s i) (i - 1)
      else
        let s := free_oop s i in
        if k + 1 =? INCREMENTAL_SWEEP_STEP then inl (set_next_to_sweep s (i - 1))
        else step_loop n (k + 1) s (i - 1)
  end.

(** _gst_incremental_gc_step, libgst/oop.c:1339-1374 *)
Definition incremental_gc_step (s : table) : table * bool :=
  if negb (incremental_gc_running s) then (s, true)
  else
    match step_loop (Z.to_nat (next_to_sweep s - last_swept s)) 0 s (next_to_sweep s) with
    | inl s' => (s', false)
    | inr (s', i) => (finished_incremental_gc (set_next_to_sweep s' i), true)
    end.

(** The first loop of reset_incremental_gc, libgst/oop.c:1384: the lowest OOPs,
    as long as they are alive. *)
Fixpoint reset_up (n : nat) (s : table) (i : Z) : outcome (table * Z) :=
  match n with
  | O => UB
  | S n => if is_valid_gc s i then reset_up n (unmark s i) (i + 1) else Ok (s, i)
  end.

(** The second, libgst/oop.c:1413-1414: the highest OOPs, as long as they are
    dead.  The OOP below the table is alive. *)
Fixpoint reset_down (n : nat) (s : table) (i : Z) : table * Z :=
  match n with
  | O => (s, i)
  | S n => if is_valid s i then (s, i) else reset_down n (sweep_oop s i) (i - 1)
  end.

(** reset_incremental_gc (_gst_mem.ot), libgst/oop.c:1376-1436, without
    NO_INCREMENTAL_GC. *)
Definition reset_incremental_gc (s : table) : outcome table :=
  olet (s, i) := reset_up (Z.to_nat (size s)) s 0 in
  let s := set_last_swept (set_next_to_sweep s (last_allocated s)) (i - 1) in
  let '(s, j) := reset_down (Z.to_nat (last_allocated s + 1)) s (last_allocated s) in
  Ok (set_next_to_sweep (set_last_allocated s j) j).

(** ** alloc_oop *)

(** libgst/oop.inl:206-211 *)
Fixpoint alloc_fast (n : nat) (s : table) (i : Z) : outcome (table * Z) :=
  match n with
  | O => UB
  | S n => if is_valid_gc s i then alloc_fast n s (i + 1) else Ok (s, i)
  end.

(** libgst/oop.inl:191-204 *)
Fixpoint alloc_sweep (n : nat) (s : table) (i : Z) : outcome (table * Z) :=
  match n with
  | O => UB
  | S n =>
      if is_valid_gc s i then
        let s := unmark s i in
        if next_to_sweep s <=? i then alloc_fast n (finished_incremental_gc s) (i + 1)
        else alloc_sweep n s (i + 1)
      else
        let s := sweep_oop s i in
        Ok (if next_to_sweep s <=? i then finished_incremental_gc s else s, i)
  end.

(** alloc_oop, libgst/oop.inl:182-225, for an object whose contents is [c]. *)
Definition alloc_oop (s : table) (c f : Z) : outcome (table * Z) :=
  let i := last_swept s + 1 in
  let n := Z.to_nat (size s - i) in
  olet (s, i) := if i <=? next_to_sweep s then alloc_sweep n s i else alloc_fast n s i in
  let s := set_last_swept s i in
  let s := if last_allocated s <? i then set_last_allocated s i else s in
  Ok (Table (fun j => if j =? i then f else flags s j)
            (fun j => if j =? i then c else cont s j)
            (size s) (last_allocated s) (last_swept s) (next_to_sweep s)
            (live_flags s) (active_flag s), i).

(** ** Collections *)

(** What copy_oops does to the flags of an object that [keep] says is reachable:
    _gst_copy_an_oop, libgst/oop.c:2058-2059, and for those that move on to
    oldspace _gst_tenure_oop, libgst/oop.c:766-767.  Old objects and those that
    are not reached are left as they are. *)
Definition copied (active : Z) (keep tenure : bool) (f : Z) : Z :=
  if any f F_OLD then f
  else if negb (any f F_SPACES) then f
  else if negb keep then f
  else
    let f := Z.lor (Z.ldiff f (Z.lor F_SPACES F_POOLED)) active in
    if tenure then Z.lor (Z.ldiff f (Z.lor F_SPACES F_POOLED)) F_OLD else f.

(** copy_oops, libgst/oop.c:1740-1776: the spaces are exchanged.  [keep] tells the
    reachable objects from the others and [tenure] which of them are made old. *)
Definition copy_oops (s : table) (keep tenure : Z -> bool) : table :=
  let active := Z.lxor (active_flag s) F_SPACES in
  Table (fun i => copied active (keep i) (tenure i) (flags s i)) (cont s) (size s)
        (last_allocated s) (last_swept s) (next_to_sweep s)
        (Z.lxor (live_flags s) F_SPACES) active.

(** mark_oops, as far as the flags are concerned: the objects that are reachable
    are marked (libgst/oop.c:2268). *)
Definition mark_oops (s : table) (keep : Z -> bool) : table :=
  Table (fun i => if keep i && any (flags s i) F_OLD then Z.lor (flags s i) F_REACHABLE
                  else flags s i)
        (cont s) (size s) (last_allocated s) (last_swept s) (next_to_sweep s)
        (live_flags s) (active_flag s).

(** _gst_scavenge, libgst/oop.c:1225-1230 *)
Definition scavenge (s : table) (keep tenure : Z -> bool) : outcome table :=
  reset_incremental_gc (copy_oops (finish_incremental_gc s) keep tenure).

(** _gst_global_gc, libgst/oop.c:1100-1112: the survivors are all made old. *)
Definition global_gc (s : table) (keep : Z -> bool) : outcome table :=
  let s := mark_oops (copy_oops (finish_incremental_gc s) keep (fun _ => true)) keep in
  reset_incremental_gc
    (set_live_flags s (Z.lor (Z.ldiff (live_flags s) F_OLD) F_REACHABLE)).
