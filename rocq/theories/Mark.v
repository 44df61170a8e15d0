(** The mark phase of the global garbage collection.

    An OOP is its index in the list of objects.  Every object has a class and
    fields; a field is an OOP or a SmallInteger.  The flags F_CONTEXT and F_WEAK are in
    the object, F_REACHABLE and F_EPHEMERON change during the mark phase and are in the
    state.  An OOP that is not in the list, and a field past the end of
    an object, are undefined behaviour.  *)
From Verif Require Import Base.
Local Open Scope nat_scope.

(** OOP and SmallInteger, told apart by IS_INT (libgst/gst.h:164-178) *)
Inductive ref := Oop (i : nat) | Int (z : Z).

(** struct object_s, libgst/gst.h:145-151, with the flags of its OOP
    (libgst/gstpriv.h:305-318); only the OOPs
    among its data are fields (NUM_OOPS) *)
Record object := Object_ { is_context : bool; is_weak : bool; is_ephemeron : bool;
                           class_of : nat; fields : list ref }.
Definition heap := list object.

(** F_REACHABLE and F_EPHEMERON of the OOPs, and the buffer of
    _gst_add_buf_pointer (libgst/str.c:70-93) *)
Record marks := Marks { reached : nat -> bool; ephf : nat -> bool; buffer : list nat }.

Definition set_reached (s : marks) (i : nat) (b : bool) : marks :=
  Marks (fun k => if Nat.eqb k i then b else reached s k) (ephf s) (buffer s).
Definition set_ephf (s : marks) (i : nat) (b : bool) : marks :=
  Marks (reached s) (fun k => if Nat.eqb k i then b else ephf s k) (buffer s).
Definition add_buf (s : marks) (i : nat) : marks :=
  Marks (reached s) (ephf s) (buffer s ++ [i]).

(** The word at [&object->objClass + k]. *)
Definition slot (h : heap) (o k : nat) : outcome ref :=
  match nth_error h o with
  | Some ob => match nth_error (Oop (class_of ob) :: fields ob) k with Some r => Ok r | None => UB end
  | None => UB
  end.

(** IS_OOP (oop) && !IS_OOP_MARKED (oop), libgst/oop.inl:65-69 *)
Definition unmarked (h : heap) (s : marks) (r : ref) : outcome (option nat) :=
  match r with
  | Int _ => Ok None
  | Oop i => if Nat.ltb i (length h) then Ok (if reached s i then None else Some i) else UB
  end.

(** The loops of markRange, libgst/oop.c:2190-2229: the first slot from
    [cur] on, of the [n] that are left, that has an unmarked OOP *)
Fixpoint seek (h : heap) (s : marks) (o cur n : nat) : outcome (option (nat * nat)) :=
  match n with
  | 0 => Ok None
  | S n =>
      olet r := slot h o cur in
      olet u := unmarked h s r in
      match u with
      | Some i => Ok (Some (cur, i))
      | None => seek h s o (S cur) n
      end
  end.

(** How many slots are scanned when an object that is no ephemeron and not weak is marked:
    libgst/oop.c:2271-2284 for contexts, whose seven fixed fields
    precede the stack (libgst/interp.h:110-124), and 2298-2306 *)
Definition scan_end (ob : object) : outcome nat :=
  if is_context ob then
    match nth_error (fields ob) 3 with
    | Some (Int sp) => Ok (Z.to_nat (8 + sp + 1)%Z)
    | _ => UB
    end
  else Ok (S (length (fields ob))).

(** The labels of _gst_mark_an_oop_internal. *)
Inductive label := MarkRange (o cur fin : nat) | MarkOne (i : nat) | MarkPop.

(** _gst_mark_an_oop_internal, libgst/oop.c:2180-2318; the mark queue
    [q] is a list and the doubling of its array is left out. *)
Fixpoint mark_loop (fuel : nat) (h : heap) (s : marks) (q : list (nat * nat * nat)) (l : label)
  : outcome marks :=
  match fuel with
  | 0 => OutOfFuel
  | S fuel =>
      match l with
      | MarkRange o cur fin =>
          olet a := seek h s o cur (fin - cur) in
          match a with
          | None => mark_loop fuel h s q MarkPop
          | Some (k, i) =>
              let s := set_reached s i true in
              olet b := seek h s o (S k) (fin - S k) in
              let q := match b with Some (k2, _) => (o, k2, fin) :: q | None => q end in
              mark_loop fuel h s q (MarkOne i)
          end
      | MarkOne i =>
          match nth_error h i with
          | None => UB
          | Some ob =>
              let s := set_reached s i true in
              olet u := unmarked h s (Oop (class_of ob)) in
              if is_context ob then
                olet e := scan_end ob in mark_loop fuel h s q (MarkRange i 0 e)
              else if ephf s i || is_weak ob then
                let s := if ephf s i then add_buf s i else s in
                match u with
                | Some c => mark_loop fuel h s q (MarkOne c)
                | None => mark_loop fuel h s q MarkPop
                end
              else match fields ob, u with
                   | _ :: _, _ => mark_loop fuel h s q (MarkRange i 0 (S (length (fields ob))))
                   | [], Some c => mark_loop fuel h s q (MarkOne c)
                   | [], None => mark_loop fuel h s q MarkPop
                   end
          end
      | MarkPop =>
          match q with
          | (o, cur, fin) :: q => mark_loop fuel h s q (MarkRange o cur fin)
          | [] => Ok s
          end
      end
  end.

(** Enough for every heap: [C26_partial]. *)
Definition enough (h : heap) : nat := 5 * length h + 4.

Definition mark_an_oop (h : heap) (s : marks) (i : nat) : outcome marks :=
  mark_loop (enough h) h s [] (MarkOne i).

(** MAYBE_MARK_OOP, libgst/oop.inl:65-69 *)
Definition maybe_mark (h : heap) (s : marks) (r : ref) : outcome marks :=
  olet u := unmarked h s r in
  match u with Some i => mark_an_oop h s i | None => Ok s end.

(** _gst_mark_oop_range, libgst/oop.c:2320-2326 *)
Fixpoint mark_range (h : heap) (s : marks) (l : list ref) : outcome marks :=
  match l with
  | [] => Ok s
  | r :: l => olet s := maybe_mark h s r in mark_range h s l
  end.

(** obj->data[0] as an OOP: the key of an ephemeron; [key->flags] when it is a
    SmallInteger or when there is no field is undefined. *)
Definition key_of (h : heap) (e : nat) : outcome nat :=
  olet r := slot h e 1 in
  match r with Oop k => if Nat.ltb k (length h) then Ok k else UB | Int _ => UB end.

(** The first loop of mark_ephemeron_oops, libgst/oop.c:2117-2129 *)
Fixpoint first_pass (h : heap) (s : marks) (l : list nat) : outcome marks :=
  match l with
  | [] => Ok s
  | e :: l =>
      olet k := key_of h e in
      let s := if reached s k then set_ephf s e false else s in
      first_pass h (set_reached s k true) l
  end.

(** The second loop, libgst/oop.c:2131-2156; [dead] is what is between base and pDeadOOP. *)
Fixpoint second_pass (h : heap) (s : marks) (l dead : list nat) : outcome (marks * list nat) :=
  match l with
  | [] => Ok (s, dead)
  | e :: l =>
      olet k := key_of h e in
      let s := set_reached s k false in
      olet s := mark_range h s (match nth_error h e with Some ob => tl (fields ob) | None => [] end) in
      let dead := if negb (reached s k) && ephf s e then dead ++ [e] else dead in
      olet s := maybe_mark h s (Oop k) in
      second_pass h (set_ephf s e true) l dead
  end.

(** mark_ephemeron_oops, libgst/oop.c:2104-2163; the recursion has [fuel] levels *)
Fixpoint mark_ephemerons (fuel : nat) (h : heap) (s : marks) : outcome marks :=
  match fuel with
  | 0 => OutOfFuel
  | S fuel =>
      let base := buffer s in
      olet s := first_pass h (Marks (reached s) (ephf s) []) base in
      olet (s, dead) := second_pass h s base [] in
      olet s := match buffer s with [] => Ok s | _ => mark_ephemerons fuel h s end in
      Ok (Marks (reached s) (ephf s) (buffer s ++ dead))
  end.

(** Before the mark phase no object is marked (libgst/oop.c:1100-1104). *)
Definition no_marks (h : heap) : marks :=
  Marks (fun _ => false)
        (fun i => match nth_error h i with Some ob => is_ephemeron ob | None => false end) [].

(** mark_oops, libgst/oop.c:2095-2102; [roots] are what _gst_mark_registered_oops
    (libgst/callin.c:1123-1149) and _gst_mark_processor_registers
    (libgst/interp.c:2417-2446) mark.  What it leaves in the buffer is sent
    #mourn (libgst/oop.c:1477-1500). *)
Definition mark_oops (fuel : nat) (h : heap) (roots : list ref) : outcome marks :=
  olet s := mark_range h (no_marks h) roots in mark_ephemerons fuel h s.
