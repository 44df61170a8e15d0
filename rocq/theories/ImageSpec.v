(** What an image is: a graph of objects.  Written without the functions that
    save and load; it only shares the types of a memory. *)
From Verif Require Import Base Image.
Local Open Scope Z_scope.

(** a SmallInteger, or a reference as the distance from the start of the table *)
Inductive val := VInt (w : Z) | VRef (d : Z).

(** An object: the attributes that a user can see (number of unused bytes and
    byte shape, weak, read-only, context, ephemeron, fixed in memory), its
    class, its pointer fields and its bytes *)
Record node := Node { attributes : Z; cls : val; pointers : list val; bytes : list Z }.

Definition graph := nat -> option node.

(** reference to the object with a number, and to nil *)
Definition ref (i : nat) : val := VRef (16 * (Z.of_nat i + 259)).
Definition null : val := VRef (16 * 256).

(** * The graph in a memory *)

Definition value (base w : Z) : val := if Z.odd w then VInt w else VRef ((w - base) mod 2 ^ 64).

(** how many words of an instance of a class are pointers, from the instance
    specification of the class; libgst/dict.h:160-192: bit 5 is set for
    indexable instances, bits 1 to 4 then give the kind of elements, no pointers
    if less than 12; the number of fixed fields starts at bit 13 *)
Definition pointer_count (spec words : Z) : Z :=
  if Z.testbit spec 5 && ((spec / 2) mod 16 <? 12) then spec / 2 ^ 13 else words.

(** the entry that a word refers to *)
Definition entry (m : memory) (w : Z) : option slot :=
  nth_error (table m) (Z.to_nat ((w - ot_base m) / 16 - 259)).

(** the graph that is in a memory of a big- or little-endian machine *)
Definition view (big : bool) (m : memory) : graph := fun i =>
  match nth_error (table m) i with
  | None => None
  | Some s =>
    if Z.land (sflags s) (live_flags m) =? 0 then None
    else
      match entry m (oclass (sobj s)) with
      | None => None
      | Some c =>
        match nth_error (odata (sobj c)) 2 with
        | None => None
        | Some spec =>
          let d := odata (sobj s) in
          let k := Z.to_nat (pointer_count spec (len d)) in
          Some (Node (Z.land (sflags s) 0x2FF) (value (ot_base m) (oclass (sobj s)))
                     (map (value (ot_base m)) (firstn k d))
                     (flat_map (bytes_of big) (skipn k d)))
        end
      end
  end.

(** the elements of an object with 64-bit unsigned elements, GST_ISP_UINT64 in
    libgst/gst.h:192: its words as numbers of the machine *)
Definition numbers (m : memory) (i : nat) : option (list Z) :=
  match nth_error (table m) i with
  | None => None
  | Some s =>
    match entry m (oclass (sobj s)) with
    | None => None
    | Some c =>
      match nth_error (odata (sobj c)) 2 with
      | None => None
      | Some spec =>
        if spec mod 64 =? 51
        then Some (skipn (Z.to_nat (pointer_count spec (len (odata (sobj s))))) (odata (sobj s)))
        else None
      end
    end
  end.

(** * Memories that occur *)

Definition word (w : Z) : Prop := 0 <= w < 2 ^ 64.

(** a table of a size at an address; at most 2^23 entries, libgst/oop.h:79 *)
Definition good_base (base : Z) (n : Z) : Prop :=
  0 <= base /\ base mod 16 = 0 /\ 0 <= n <= 2 ^ 23 /\ base + 16 * (259 + n) <= 2 ^ 64.

(** a class: a live object that is not made of bytes, with an instance
    specification, a SmallInteger, as third field *)
Definition good_class (m : memory) (w : Z) (spec : Z) : Prop :=
  exists c s, w = ot_base m + 16 * (Z.of_nat c + 259) /\ nth_error (table m) c = Some s
    /\ Z.land (sflags s) (live_flags m) <> 0 /\ Z.land (sflags s) 15 = 0
    /\ nth_error (odata (sobj s)) 2 = Some spec /\ Z.odd spec = true /\ 0 <= spec < 2 ^ 63.

(** the superclasses of a class come to an end *)
Inductive lineage (m : memory) : Z -> Prop :=
| top : forall w i s, w = ot_base m + 16 * (Z.of_nat i + 259) -> nth_error (table m) i = Some s ->
    Z.land (sflags s) (live_flags m) <> 0 -> Z.land (sflags s) 15 = 0 ->
    nth_error (odata (sobj s)) 0 = Some (ot_base m + 16 * 256) -> lineage m w
| up : forall w i s v, w = ot_base m + 16 * (Z.of_nat i + 259) -> nth_error (table m) i = Some s ->
    Z.land (sflags s) (live_flags m) <> 0 -> Z.land (sflags s) 15 = 0 ->
    nth_error (odata (sobj s)) 0 = Some v -> lineage m v -> lineage m w.

(** a list of links comes to an end *)
Inductive links (m : memory) : Z -> Prop :=
| no_link : links m (ot_base m + 16 * 256)
| a_link : forall w i s v, w = ot_base m + 16 * (Z.of_nat i + 259) -> nth_error (table m) i = Some s ->
    Z.land (sflags s) (live_flags m) <> 0 -> Z.land (sflags s) 15 = 0 ->
    nth_error (odata (sobj s)) 0 = Some v -> links m v -> links m w.

(** one of the classes in a list, or a subclass *)
Inductive inherits (m : memory) (top : Z) : Z -> Prop :=
| same : inherits m top top
| super : forall w i s v, w = ot_base m + 16 * (Z.of_nat i + 259) -> nth_error (table m) i = Some s ->
    nth_error (odata (sobj s)) 0 = Some v -> inherits m top v -> inherits m top w.

(** a live object *)
Definition good_slot (r : roles) (m : memory) (s : slot) : Prop :=
  let d := odata (sobj s) in
  0 <= sflags s < 2 ^ 31
  /\ osize (sobj s) = 2 * (2 + len d) + 1 /\ 8 * (2 + len d) + 65536 < 2 ^ 31
  /\ Forall word d /\ lineage m (oclass (sobj s))
  /\ (exists spec, good_class m (oclass (sobj s)) spec
      /\ pointer_count spec (len d) <= len d
      /\ (Z.land (sflags s) 15 = 0 -> pointer_count spec (len d) = len d /\ Z.testbit spec 5 && ((spec / 2) mod 16 <? 12) = false)
      /\ (Z.land (sflags s) 15 <> 0 -> Z.testbit spec 5 && ((spec / 2) mod 16 <? 12) = true)
      /\ (Z.land (sflags s) 15 <> 0 -> inherits m (c_callable_class r) (oclass (sobj s)) ->
          2 <= pointer_count spec (len d) < len d))
  /\ (Z.land (sflags s) 64 <> 0 -> Z.land (sflags s) 15 = 0 /\ 2 <= len d)
  /\ (oclass (sobj s) = callin_process_class r -> Z.land (sflags s) 15 = 0 /\ 4 <= len d)
  /\ (oclass (sobj s) = process_class r ->
      Z.land (sflags s) 15 = 0 /\ exists v, nth_error d 0 = Some v /\ links m v)
  /\ (oclass (sobj s) = semaphore_class r ->
      Z.land (sflags s) 15 = 0 /\ 2 <= len d /\ exists v, nth_error d 0 = Some v /\ links m v)
  /\ (inherits m (file_descriptor_class r) (oclass (sobj s)) -> Z.land (sflags s) 15 = 0 /\ 2 <= len d)
  /\ (inherits m (c_callable_class r) (oclass (sobj s)) -> Z.land (sflags s) 15 <> 0).

Definition good_memory (r : roles) (m : memory) : Prop :=
  good_base (ot_base m) (len (table m))
  /\ nil_class m <> callin_process_class r
  /\ Forall (fun w => word w /\ w <> ot_base m + 16 * 256)
       [callin_process_class r; process_class r; semaphore_class r;
        file_descriptor_class r; c_callable_class r]
  /\ forall i s, nth_error (table m) i = Some s -> Z.land (sflags s) (live_flags m) <> 0 -> good_slot r m s.

(** * What saving may change *)

(** the classes, as values *)
Record named := Named { callin : val; process : val; semaphore : val;
                        descriptor : val; callable : val }.
Definition names (base : Z) (r : roles) : named :=
  Named (value base (callin_process_class r)) (value base (process_class r))
        (value base (semaphore_class r)) (value base (file_descriptor_class r))
        (value base (c_callable_class r)).

(** the processes in a list of links *)
Inductive queue (g : graph) : val -> list nat -> Prop :=
| q_end : queue g null []
| q_link : forall i n v l, g i = Some n -> nth_error (pointers n) 0 = Some v -> queue g v l ->
    queue g (ref i) (i :: l).

(** a process called in from C *)
Definition is_callin (N : named) (g : graph) (i : nat) : Prop := exists n, g i = Some n /\ cls n = callin N.

(** the members of a list with a property, in their order *)
Inductive only (P : nat -> Prop) : list nat -> list nat -> Prop :=
| only_nil : only P [] []
| only_keep : forall i l l', P i -> only P l l' -> only P (i :: l) (i :: l')
| only_drop : forall i l l', ~ P i -> only P l l' -> only P (i :: l) l'.

(** first and last of a list as links *)
Definition first_link (l : list nat) : val := match l with [] => null | i :: _ => ref i end.
Definition last_link (l : list nat) : val := first_link (rev l).

(** a list with another member at a place *)
Definition with_nth {A} (k : nat) (x : A) (l : list A) : list A := firstn k l ++ x :: skipn (S k) l.
Definition with_pointer (k : nat) (v : val) (n : node) : node :=
  Node (attributes n) (cls n) (with_nth k v (pointers n)) (bytes n).

(** a class is another one, or inherits from it *)
Inductive kind_of (g : graph) (top : val) : val -> Prop :=
| k_same : kind_of g top top
| k_super : forall i n v, g i = Some n -> nth_error (pointers n) 0 = Some v -> kind_of g top v ->
    kind_of g top (ref i).

(** an object and what it becomes in the file: contexts forget the address of
    native code; processes called in from C end, and other processes and
    semaphores lose them from their queues; files are closed; external functions
    forget their address *)
Inductive saved (N : named) (g : graph) (n : node) : node -> Prop :=
| s_context : Z.land (attributes n) 64 <> 0 -> saved N g n (with_pointer 1 (VInt 1) n)
| s_callin : Z.land (attributes n) 64 = 0 -> cls n = callin N ->
    saved N g n (with_pointer 3 null (with_pointer 0 null (with_pointer 1 null n)))
| s_process v l l' : Z.land (attributes n) 64 = 0 -> cls n <> callin N -> cls n = process N ->
    nth_error (pointers n) 0 = Some v -> queue g v l -> only (fun i => ~ is_callin N g i) l l' ->
    saved N g n (with_pointer 0 (first_link l') n)
| s_semaphore v l l' : Z.land (attributes n) 64 = 0 -> cls n <> callin N -> cls n <> process N ->
    cls n = semaphore N ->
    nth_error (pointers n) 0 = Some v -> queue g v l -> only (fun i => ~ is_callin N g i) l l' ->
    saved N g n (with_pointer 1 (last_link l') (with_pointer 0 (first_link l') n))
| s_descriptor : Z.land (attributes n) 64 = 0 -> cls n <> callin N -> cls n <> process N ->
    cls n <> semaphore N -> kind_of g (descriptor N) (cls n) ->
    saved N g n (with_pointer 1 null n)
| s_callable b : Z.land (attributes n) 64 = 0 -> cls n <> callin N -> cls n <> process N ->
    cls n <> semaphore N -> ~ kind_of g (descriptor N) (cls n) -> kind_of g (callable N) (cls n) ->
    nth_error (pointers n) 1 = Some null -> List.length b = 8%nat -> (exists a, bytes n = a ++ b) ->
    saved N g n (Node (attributes n) (cls n) (pointers n)
                      (firstn (List.length (bytes n) - 8) (bytes n) ++ repeat 0 8))
| s_callable_stored v : Z.land (attributes n) 64 = 0 -> cls n <> callin N -> cls n <> process N ->
    cls n <> semaphore N -> ~ kind_of g (descriptor N) (cls n) -> kind_of g (callable N) (cls n) ->
    nth_error (pointers n) 1 = Some v -> v <> null -> saved N g n n
| s_other : Z.land (attributes n) 64 = 0 -> cls n <> callin N -> cls n <> process N ->
    cls n <> semaphore N -> ~ kind_of g (descriptor N) (cls n) -> ~ kind_of g (callable N) (cls n) ->
    saved N g n n.

(** two graphs with the same objects, up to what saving may change *)
Definition same_image (N : named) (g g' : graph) : Prop := forall i,
  match g i, g' i with
  | Some n, Some n' => saved N g n n'
  | None, None => True
  | _, _ => False
  end.
