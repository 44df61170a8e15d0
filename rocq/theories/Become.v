(** become:, tenuring and weak objects in the object table,
    libgst/oop.c:608-770.  The tree of weak objects is left out: it holds the
    OOPs that have the flag, and its red-black operations are in RbTree.v. *)
From Verif Require Import Base OopTab OopTabRun.
Local Open Scope Z_scope.

(** libgst/gstpriv.h:305-308 and 323-324 *)
Definition F_WEAK : Z := 16.
Definition F_READONLY : Z := 32.
Definition F_FIXED : Z := 512.

(** IS_OOP_WEAK and IS_OOP_READONLY, libgst/gstpriv.h:350-355; no SmallInteger is
    meant by an OOP here. *)
Definition is_weak (s : table) (i : Z) : bool := any (flags s i) F_WEAK.
Definition is_readonly (s : table) (i : Z) : bool := any (flags s i) F_READONLY.

(** _gst_make_oop_non_weak and _gst_make_oop_weak, libgst/oop.c:609-659 *)
Definition make_oop_non_weak (s : table) (i : Z) : table :=
  set_flags s i (Z.ldiff (flags s i) F_WEAK).
Definition make_oop_weak (s : table) (i : Z) : table :=
  set_flags s i (Z.lor (flags s i) F_WEAK).

(** _gst_tenure_oop, libgst/oop.c:747-768: the object is copied to oldspace. *)
Definition tenure_oop (s : table) (i : Z) : table :=
  if any (flags s i) F_OLD then s
  else set_flags s i (Z.lor (Z.ldiff (flags s i) (Z.lor F_SPACES F_POOLED)) F_OLD).

(** _gst_make_oop_fixed, libgst/oop.c:718-744: to fixedspace. *)
Definition make_oop_fixed (s : table) (i : Z) : table :=
  if any (flags s i) F_FIXED then s
  else set_flags s i
         (Z.lor (Z.ldiff (flags s i) (Z.lor F_SPACES F_POOLED)) (Z.lor F_OLD F_FIXED)).

(** The structure assignments of libgst/oop.c:694-696. *)
Definition exchange (s : table) (i j : Z) : table :=
  Table (fun k => if k =? i then flags s j else if k =? j then flags s i else flags s k)
        (fun k => if k =? i then cont s j else if k =? j then cont s i else cont s k)
        (size s) (last_allocated s) (last_swept s) (next_to_sweep s)
        (live_flags s) (active_flag s).

(** oop->flags ^= F_REACHABLE *)
Definition flip_mark (s : table) (i : Z) : table :=
  set_flags s i (Z.lxor (flags s i) F_REACHABLE).

(** _gst_swap_objects, libgst/oop.c:661-714, without the translator. *)
Definition swap_objects (s : table) (i j : Z) : table :=
  let s := if is_weak s j then make_oop_non_weak s j else s in
  let s := if is_weak s i then make_oop_non_weak s i else s in
  let s := if xorb (any (flags s i) F_OLD) (any (flags s j) F_OLD)
           then tenure_oop s (if any (flags s i) F_OLD then j else i) else s in
  let s := exchange s i j in
  let s := if xorb (any (flags s i) F_REACHABLE) (any (flags s j) F_REACHABLE)
           then flip_mark (flip_mark s i) j else s in
  let s := if is_weak s j then make_oop_weak s j else s in
  if is_weak s i then make_oop_weak s i else s.

(** The primitives: Object>>become: (libgst/prims.def:2369-2387), makeWeak
    (libgst/prims.def:5453-5465), tenure and makeFixed (libgst/prims.def:4676-4704),
    isReadOnly, makeReadOnly:, and the question whether an object is weak
    (libgst/gstpriv.h:350-360). *)
Inductive prequest :=
| Table_ (r : request)
| Become (i j : Z)
| MakeWeak (i : Z)
| MakeReadOnly (i : Z)
| Tenure (i : Z)
| MakeFixed (i : Z)
| IsWeak (i : Z)
| IsReadOnly (i : Z).

(** Their answers; [PFail]: the primitive fails, and nothing is changed. *)
Inductive panswer := PA (a : answer) | PFail | PDone | PBool (b : bool).

(** A program only has references to objects that are alive: a request about
    another OOP is outside the model. *)
Definition known (s : table) (i : Z) : bool := in_table s i && is_valid s i.

Definition pserve (s : table) (r : prequest) : outcome (table * panswer) :=
  match r with
  | Table_ r => olet (s, a) := serve s r in Ok (s, PA a)
  | Become i j =>
      if negb (known s i && known s j) then Err
      else if negb (is_readonly s i) && negb (is_readonly s j) then Ok (swap_objects s i j, PDone)
      else Ok (s, PFail)
  | MakeWeak i =>
      if known s i then Ok (if is_weak s i then s else make_oop_weak s i, PDone) else Err
  | MakeReadOnly i =>
      if known s i then
        Ok (set_flags s i (Z.lor (Z.ldiff (flags s i) F_READONLY) F_READONLY), PDone)
      else Err
  | Tenure i => if known s i then Ok (tenure_oop s i, PDone) else Err
  | MakeFixed i => if known s i then Ok (make_oop_fixed s i, PDone) else Err
  | IsWeak i => if known s i then Ok (s, PBool (is_weak s i)) else Err
  | IsReadOnly i => if known s i then Ok (s, PBool (is_readonly s i)) else Err
  end.

Fixpoint prun (s : table) (rs : list prequest) : outcome (table * list panswer) :=
  match rs with
  | [] => Ok (s, [])
  | r :: rs => olet (s, a) := pserve s r in olet (s, l) := prun s rs in Ok (s, a :: l)
  end.

(** The step of the sweep that stops at the end of its range, as for C27. *)
Fixpoint no_step_just_stops (s : table) (rs : list prequest) : Prop :=
  match rs with
  | [] => True
  | r :: rs =>
      match pserve s r with
      | Ok (s', a) =>
          (a = PA (ASwept false) -> incremental_gc_running s' = true) /\ no_step_just_stops s' rs
      | _ => True
      end
  end.

(** New objects are not weak nor read-only (libgst/oop.c:795 and 829). *)
Definition pproper (r : prequest) : Prop :=
  match r with
  | Table_ (NewObject _ extra) =>
      plain_flags extra /\ Z.land extra (Z.lor (Z.lor F_WEAK F_READONLY) F_FIXED) = 0
  | _ => True
  end.

(** No weak object takes part in a become:, the condition of [C28_partial]. *)
Fixpoint no_weak_become (s : table) (rs : list prequest) : Prop :=
  match rs with
  | [] => True
  | r :: rs =>
      match r with
      | Become i j => is_weak s i = false /\ is_weak s j = false
      | _ => True
      end /\
      match pserve s r with Ok (s', _) => no_weak_become s' rs | _ => True end
  end.
