(** The scavenger: a collection of the young objects (libgst/oop.c).

    Objects are named by their place in the object table, which a collection does
    not change; what is moved is their bodies.  Young objects that can be reached
    are copied to the active survivor space, a circular buffer of words; the
    oldest objects there are moved on ("tenured") to the old space when there is
    no room.  Copied objects wait in the tenuring queue, a second circular buffer,
    to have their fields looked at.

    Modelled with their addresses: the survivor space, word by word, the tenuring
    queue, slot by slot, and the places the collector keeps between two steps.
    The old space hands out fresh memory for each object (libgst/alloc.c is not
    modelled).  Old objects are seen only by the pages of them that are "grey",
    that is may refer to young objects; how pages become grey (by write faults) and
    the decision to protect them again are not modelled, and neither are weak
    references (check_weak_refs), statistics and the freeing of what was not
    copied. *)
From Coq Require Import ZArith List Bool.
From Verif Require Import Base.
Import ListNotations.
Local Open Scope list_scope.
Local Open Scope Z_scope.

(** A word of memory: an integer or an object, libgst/oop.h, gst.h. *)
Inductive word := WInt (z : Z) | WOop (o : nat).

(** A young object: its words, of which the first is the size in words and the
    second the class (gst_object_header, libgst/gst.h:128-143); how many of them,
    from the class on, are looked at (scanned_fields_in, libgst/oop.c:1936-1957:
    all that are pointers, up to the stack pointer for contexts, the class only
    for weak objects); and whether it is an ephemeron. *)
Record shape := Shape { words : list word; scanned : nat; ephemeron : bool }.

(** Where the body of an object is: it was in the old space before; it is in eden or
    in the other survivor space and has not been copied; it is in the active
    survivor space, at an offset; or it was tenured, the old space holding the
    words that were copied there. *)
Inductive place := Old | Young | At (a : Z) | Tenured (body : list word).

(** surv_space, libgst/oop.h:155-164; addresses are offsets from minPtr, in words.
    The counts allocated and filled are left out: they are statistics, but for
    _gst_tenure_all_survivors, which is not modelled. *)
Record queue := Queue { q_tenure : Z; q_alloc : Z; q_top : Z; q_max : Z }.

(** IS_QUEUE_SPLIT, libgst/oop.c:1515 *)
Definition split_queue (q : queue) : bool := negb (q_top q =? q_alloc q).

(** queue_get, libgst/oop.c:1517-1532 *)
Definition queue_get (q : queue) (n : Z) : queue :=
  let t := q_tenure q + n in
  if t =? q_top q then Queue 0 (q_alloc q) (q_alloc q) (q_max q)
  else Queue t (q_alloc q) (q_top q) (q_max q).

(** the end of queue_put, libgst/oop.c:1571-1580, without the copy *)
Definition queue_take (q : queue) (n : Z) : queue :=
  let new := q_alloc q + n in
  Queue (q_tenure q) new (if split_queue q then q_top q else new) (q_max q).

(** Where a body is read: by its offset in the active survivor space, or in the
    old space. *)
Inductive base := InHalf (a : Z) | InOld (o : nat).

(** The state of a scavenge: where the objects are; the active survivor space and its
    words; the tenuring queue and its slots; cheney_scan_state
    (libgst/oop.h:177-181), namely queue_at, current, at; grey_areas
    (libgst/oop.h:166-175, 213), each with the object, where to start and how
    many words; and the objects to be mourned (_gst_add_buf_pointer). *)
Record st := St {
  place_of : nat -> place;
  half : queue;
  mem : Z -> word;
  tq : queue;
  slot : Z -> nat;
  queue_at : Z;
  current : option nat;
  at_ : base;
  grey : list (nat * (base * Z) * nat);
  mourned : list nat
}.

Definition set_place (s : st) (o : nat) (p : place) : st :=
  St (fun x => if Nat.eqb x o then p else place_of s x) (half s) (mem s) (tq s) (slot s)
     (queue_at s) (current s) (at_ s) (grey s) (mourned s).
Definition set_half (s : st) (q : queue) : st :=
  St (place_of s) q (mem s) (tq s) (slot s) (queue_at s) (current s) (at_ s) (grey s) (mourned s).
Definition set_mem (s : st) (m : Z -> word) : st :=
  St (place_of s) (half s) m (tq s) (slot s) (queue_at s) (current s) (at_ s) (grey s) (mourned s).
Definition set_tq (s : st) (q : queue) : st :=
  St (place_of s) (half s) (mem s) q (slot s) (queue_at s) (current s) (at_ s) (grey s) (mourned s).
Definition set_slot (s : st) (f : Z -> nat) : st :=
  St (place_of s) (half s) (mem s) (tq s) f (queue_at s) (current s) (at_ s) (grey s) (mourned s).
Definition set_scan (s : st) (p : Z) : st :=
  St (place_of s) (half s) (mem s) (tq s) (slot s) p (current s) (at_ s) (grey s) (mourned s).
Definition set_current (s : st) (o : nat) : st :=
  St (place_of s) (half s) (mem s) (tq s) (slot s) (queue_at s) (Some o) (at_ s) (grey s) (mourned s).
Definition set_at (s : st) (b : base) : st :=
  St (place_of s) (half s) (mem s) (tq s) (slot s) (queue_at s) (current s) b (grey s) (mourned s).
Definition set_grey (s : st) (l : list (nat * (base * Z) * nat)) : st :=
  St (place_of s) (half s) (mem s) (tq s) (slot s) (queue_at s) (current s) (at_ s) l (mourned s).
Definition mourn (s : st) (o : nat) : st :=
  St (place_of s) (half s) (mem s) (tq s) (slot s) (queue_at s) (current s) (at_ s) (grey s)
     (mourned s ++ [o]).

Section Scavenge.
  Variable shapes : nat -> shape.
  (** a bound of the iterations of each loop; none of them has one in the code *)
  Variable fuel : nat.

  (** IS_OOP_COPIED, libgst/oop.inl:71-72, 79-80 *)
  Definition copied (s : st) (w : word) : bool :=
    match w with
    | WInt _ => true
    | WOop o => match place_of s o with Young => false | _ => true end
    end.

  (** the address of a body that was copied: oop->object.  The old objects and the
      young ones are not asked for. *)
  Definition where_is (s : st) (o : nat) : outcome base :=
    match place_of s o with
    | At a => Ok (InHalf a)
    | Tenured _ => Ok (InOld o)
    | Old | Young => UB
    end.

  (** the word at a place, a number of words from the start of a body; beyond the
      end of an object of the old space nothing is known *)
  Definition read (s : st) (b : base) (k : Z) : outcome word :=
    match b with
    | InHalf a => Ok (mem s (a + k))
    | InOld o =>
      match place_of s o with
      | Tenured body => match nth_error body (Z.to_nat k) with Some w => Ok w | None => UB end
      | _ => UB
      end
    end.

  (** n words of the survivor space *)
  Definition chunk (m : Z -> word) (a : Z) (n : nat) : list word :=
    map (fun i => m (a + Z.of_nat i)) (seq 0 n).

  (** memcpy to the survivor space, libgst/oop.c:1581 *)
  Definition store (m : Z -> word) (a : Z) (l : list word) : Z -> word :=
    fun x => if (a <=? x) && (x <? a + Z.of_nat (List.length l))
             then nth (Z.to_nat (x - a)) l (WInt 0) else m x.

  (** objSize of an object, as it is read from its body *)
  Definition size_of (s : st) (o : nat) : outcome Z :=
    match (match place_of s o with
           | Young => hd_error (words (shapes o))
           | At a => Some (mem s a)
           | Tenured body => hd_error body
           | Old => None
           end) with
    | Some (WInt z) => Ok z
    | _ => UB
    end.

  (** _gst_tenure_oop, libgst/oop.c:746-768.  An object that is larger than the
      survivor space may be tenured before it was copied there. *)
  Definition tenure (s : st) (o : nat) : outcome st :=
    match place_of s o with
    | Old | Tenured _ => Ok s
    | Young => Ok (set_place s o (Tenured (words (shapes o))))
    | At a =>
      olet z := size_of s o in
      Ok (set_place s o (Tenured (chunk (mem s) a (Z.to_nat z))))
    end.

  (** add_grey_object, libgst/oop.c:1645-1674 *)
  Definition add_grey (s : st) (o : nat) : outcome st :=
    let n := scanned (shapes o) in
    if Nat.eqb n 0 then Ok s
    else
      olet b := where_is s o in
      Ok (set_grey s (grey s ++
            [if ephemeron (shapes o) then (o, (b, 3), (n - 2)%nat) else (o, (b, 1), n)])).

  (** tenure_one_object, libgst/oop.c:1585-1628 *)
  Definition tenure_one (s : st) : outcome st :=
    let o := slot s (q_tenure (tq s)) in
    olet s1 :=
      (if match current s with Some x => Nat.eqb x o | None => false end
       then olet s1 := tenure s o in
            olet b := where_is s1 o in Ok (set_at s1 b)
       else if queue_at s =? q_tenure (tq s)
       then let p := queue_at s + 1 in
            let p := if (q_top (tq s) <=? p) && split_queue (tq s) then 0 else p in
            olet s1 := tenure (set_scan s p) o in
            add_grey s1 o
       else tenure s o) in
    let s2 := set_tq s1 (queue_get (tq s1) 1) in
    olet z := size_of s2 o in
    Ok (set_half s2 (queue_get (half s2) z)).

  (** the loop of queue_put, libgst/oop.c:1538-1569, on the active survivor space *)
  Fixpoint room_half (fuel : nat) (n : Z) (s : st) : outcome st :=
    match fuel with
    | O => OutOfFuel
    | S fuel =>
      let q := half s in
      let new := q_alloc q + n in
      if split_queue q && (q_tenure q <? new)
      then olet s' := tenure_one s in room_half fuel n s'
      else if q_max q <? new
      then room_half fuel n (set_half s (Queue (q_tenure q) 0 (q_alloc q) (q_max q)))
      else Ok s
    end.

  (** the same on the tenuring queue *)
  Fixpoint room_tq (fuel : nat) (n : Z) (s : st) : outcome st :=
    match fuel with
    | O => OutOfFuel
    | S fuel =>
      let q := tq s in
      let new := q_alloc q + n in
      if split_queue q && (q_tenure q <? new)
      then olet s' := tenure_one s in room_tq fuel n s'
      else if q_max q <? new
      then room_tq fuel n (set_tq s (Queue (q_tenure q) 0 (q_alloc q) (q_max q)))
      else Ok s
    end.

  (** queue_put, libgst/oop.c:1534-1583, of an object on the tenuring queue *)
  Definition put_tq (o : nat) (s : st) : outcome st :=
    olet s1 := room_tq fuel 1 s in
    let a := q_alloc (tq s1) in
    Ok (set_slot (set_tq s1 (queue_take (tq s1) 1))
          (fun x => if x =? a then o else slot s1 x)).

  (** queue_put of a body on the active survivor space; answers its address *)
  Definition put_half (body : list word) (s : st) : outcome (Z * st) :=
    olet s1 := room_half fuel (Z.of_nat (List.length body)) s in
    let a := q_alloc (half s1) in
    Ok (a, set_mem (set_half s1 (queue_take (half s1) (Z.of_nat (List.length body))))
             (store (mem s1) a body)).

  (** the first of some words that has not been copied *)
  Fixpoint first_young (s : st) (l : list word) : option nat :=
    match l with
    | [] => None
    | w :: l' =>
      if copied s w then first_young s l'
      else match w with WOop o => Some o | WInt _ => None end
    end.

  (** _gst_copy_an_oop, libgst/oop.c:2017-2091 *)
  Fixpoint copy_chain (k : nat) (o : nat) (s : st) : outcome st :=
    match k with
    | O => OutOfFuel
    | S k =>
      match place_of s o with
      | Young =>
        olet s1 := put_tq o s in
        olet r := put_half (words (shapes o)) s1 in
        let a := fst r in
        let s2 := set_place (snd r) o (At a) in
        if ephemeron (shapes o) then add_grey s2 o
        else
          match first_young s2 (chunk (mem s2) (a + 2) (scanned (shapes o) - 1)) with
          | Some o' => copy_chain k o' s2
          | None => Ok s2
          end
      | _ => UB
      end
    end.

  (** MAYBE_COPY_OOP, libgst/oop.inl:57-61 *)
  Definition maybe_copy (w : word) (s : st) : outcome st :=
    if copied s w then Ok s
    else match w with WOop o => copy_chain fuel o s | WInt _ => Ok s end.

  (** the fields of the object that is scanned, from the i-th on, libgst/oop.c:1999-2001;
      the address is read anew for each *)
  Fixpoint scan_fields (n : nat) (i : Z) (s : st) : outcome st :=
    match n with
    | O => Ok s
    | S n =>
      olet w := read s (at_ s) (i + 1) in
      olet s' := maybe_copy w s in
      scan_fields n (i + 1) s'
    end.

  (** cheney_scan, libgst/oop.c:1959-2007 *)
  Fixpoint cheney (k : nat) (s : st) : outcome st :=
    match k with
    | O => OutOfFuel
    | S k =>
      if queue_at s =? q_alloc (tq s) then Ok s
      else
        let p := if q_top (tq s) <=? queue_at s then 0 else queue_at s in
        if p =? q_alloc (tq s) then Ok (set_scan s p)
        else
          let o := slot s p in
          let s1 := set_scan (set_current s o) (p + 1) in
          if ephemeron (shapes o) then cheney k s1
          else
            olet b := where_is s1 o in
            olet s2 := scan_fields (scanned (shapes o)) 0 (set_at s1 b) in
            cheney k s2
    end.

  (** _gst_copy_oop_range, libgst/oop.c:2009-2015: the address is not read anew *)
  Fixpoint copy_range (n : nat) (b : base) (k : Z) (s : st) : outcome st :=
    match n with
    | O => Ok s
    | S n =>
      olet w := read s b k in
      olet s' := maybe_copy w s in
      copy_range n b (k + 1) s'
    end.

  (** words of which the place does not matter: of registers, variables of C, and
      pages of the old space *)
  Fixpoint copy_words (l : list word) (s : st) : outcome st :=
    match l with
    | [] => Ok s
    | w :: l' => olet s' := maybe_copy w s in copy_words l' s'
    end.

  (** scan_grey_pages, libgst/oop.c:1813-1886 *)
  Fixpoint grey_pages (l : list (list word)) (s : st) : outcome st :=
    match l with
    | [] => Ok s
    | p :: l' =>
      olet s1 := copy_words p s in
      olet s2 := cheney fuel s1 in
      grey_pages l' s2
    end.

  (** scan_grey_objects, libgst/oop.c:1888-1934 *)
  Fixpoint grey_objects (k : nat) (s : st) : outcome st :=
    match k with
    | O => OutOfFuel
    | S k =>
      match grey s with
      | [] => Ok s
      | (o, (b, i), n) :: _ =>
        olet obj := where_is s o in
        olet s1 := (if ephemeron (shapes o) then copy_range n obj 3 s else copy_range n b i s) in
        olet s2 :=
          (if ephemeron (shapes o)
           then olet key := read s1 obj 2 in
                if copied s1 key then Ok s1
                else olet s2 := maybe_copy key s1 in Ok (mourn s2 o)
           else Ok s1) in
        olet s3 := cheney fuel (set_grey s2 (tl (grey s2))) in
        grey_objects k s3
      end
    end.

  (** copy_oops, libgst/oop.c:1740-1774: the grey pages, the variables registered
      by C (callin.c:1095-1121), the registers (interp.c:2381-2413) *)
  Definition scavenge (pages : list (list word)) (registered registers : list word) (s : st) :
      outcome st :=
    olet s1 := grey_pages pages s in
    olet s2 := copy_words registered s1 in
    olet s3 := cheney fuel s2 in
    olet s4 := copy_words registers s3 in
    olet s5 := cheney fuel s4 in
    grey_objects fuel s5.
End Scavenge.

(** copy_oops, libgst/oop.c:1745-1754: the start of a scavenge, given the places of
    the objects, what memory holds, the survivor space's size in words and the
    object that was scanned last.  The tenuring queue has half as many slots as
    the survivor space has words (_gst_init_mem, libgst/oop.c:319-325). *)
Definition start (places : nat -> place) (m : Z -> word) (slots : Z -> nat) (size : Z)
    (last : option nat) (at0 : base) : st :=
  St places (Queue 0 0 0 size) m (Queue 0 0 0 (size / 2)) slots 0 last at0 [] [].
