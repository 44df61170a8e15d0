(** What a client of the allocator may do and may rely on. *)
From Verif Require Import Base Alloc.

(** A request for a number of bytes, the return of a piece of memory, and a
    change of its size. *)
Inductive op :=
| OAlloc (sz : Z)
| OFree (mem : Z)
| ORealloc (mem sz : Z).

(** The pieces of memory the client holds: address and size asked for. *)
Definition holdings := list (Z * Z).
Definition drop (mem : Z) (live : holdings) : holdings := filter (fun x => negb (fst x =? mem)) live.
Definition gain (r : option Z) (sz : Z) (live : holdings) : holdings :=
  match r with Some m => (m, sz) :: live | None => live end.

(** The client only returns what it holds (or a null pointer), and asks for less
    than 2 Gb at a time. *)
Definition LARGEST : Z := 2 ^ 31 - 8192.
Definition allowed (live : holdings) (o : op) : Prop :=
  match o with
  | OAlloc sz => 0 <= sz <= LARGEST
  | OFree mem => mem = 0 \/ In mem (map fst live)
  | ORealloc mem sz => (mem = 0 \/ In mem (map fst live)) /\ 0 <= sz <= LARGEST
  end.

(** No two pieces overlap, all are aligned to words and none is at 0. *)
Definition separate (x y : Z * Z) : Prop := fst x + snd x <= fst y \/ fst y + snd y <= fst x.
Definition sound (live : holdings) : Prop :=
  ForallOrdPairs separate live /\ NoDup (map fst live)
  /\ Forall (fun x => 0 < fst x /\ (8 | fst x)) live.

Section Client.
  Context (os : nat -> st -> Z -> option Z) (chunk limit : Z).

  Definition step (s : st) (live : holdings) (o : op) : outcome (st * holdings) :=
    match o with
    | OAlloc sz => olet r := mem_alloc os chunk limit s sz in Ok (snd r, gain (fst r) sz live)
    | OFree mem => olet s := mem_free s mem in Ok (s, drop mem live)
    | ORealloc mem sz =>
      olet r := mem_realloc os chunk limit s mem sz in Ok (snd r, gain (fst r) sz (drop mem live))
    end.

  (** [run s live ops s' live']: a history of a client that keeps to the rules *)
  Inductive run : st -> holdings -> list op -> st -> holdings -> Prop :=
  | run_nil s live : run s live [] s live
  | run_cons s live o s1 live1 ops s' live' :
      allowed live o -> step s live o = Ok (s1, live1) -> run s1 live1 ops s' live' ->
      run s live (o :: ops) s' live'.
End Client.

(** The memory that the allocator has from the system: what is free and the
    blocks in use. *)
Definition extent (x : Z * block) : Z * Z :=
  (fst x, match snd x with Small _ _ _ _ => 4096 | Large n _ => n + 16 end).
Definition regions (s : st) : list (Z * Z) := prim s ++ map extent (blocks s).

(** The system gives whole pages that it has not given before (or that have been
    returned), in an address space of 47 bits. *)
Definition honest (os : nat -> st -> Z -> option Z) : Prop :=
  forall n s sz p, os n s sz = Some p ->
    (4096 | p) /\ 0 < p /\ p + sz <= 2 ^ 47 /\ Forall (separate (p, sz)) (regions s).

(** Free memory is a list of blocks in order, no two of which touch. *)
Fixpoint coalesced (l : list (Z * Z)) : Prop :=
  match l with
  | [] => True
  | (a, n) :: t => match t with [] => True | (b, _) :: _ => a + n < b end /\ coalesced t
  end.

(** The memory that was asked of the system to be divided: all that is free and
    the blocks in use that were not mapped on their own. *)
Fixpoint sum (l : list (Z * Z)) : Z := match l with [] => 0 | x :: l => snd x + sum l end.
Definition shared (x : Z * block) : bool := match snd x with Large _ true => false | _ => true end.
Definition arena (s : st) : Z := sum (prim s) + sum (map extent (filter shared (blocks s))).
