(** The allocator of the memory that objects live in (libgst/alloc.c,
    libgst/alloc.h:60-118).  Linked lists are Coq lists, the headers of blocks
    are kept in a table by address; one heap, without hooks (alloc.c:203-206,
    229-236, 494-495, 540-541, 559-560 are left out), compiled without OPTIMIZE. *)
From Verif Require Import Base.

(** pagesize; MMAP_THRESHOLD, alloc.c:71 *)
Definition PAGE : Z := 4096.
Definition THRESHOLD : Z := 262144.

(** SMALL_OBJ_HEADER_SIZE and LARGE_OBJ_HEADER_SIZE, alloc.c:78-79, for the
    struct of alloc.h:72-95: size, bits and padding to 16 take 16 bytes, then nr,
    avail, free and nfree take 24 and data is aligned to 16. *)
Definition SMALL_HEADER : Z := 48.
Definition LARGE_HEADER : Z := 16.

(** ROUNDUPALIGN and ROUNDUPPAGESIZE, alloc.c:64-65 *)
Definition round_align (v : Z) : Z := Z.land (v + 8 - 1) (- 8).
Definition round_page (v : Z) : Z := Z.land (v + PAGE - 1) (- PAGE).

(** MEM2BLOCK, alloc.c:56 *)
Definition mem2block (m : Z) : Z := Z.land m (- PAGE).

(** The part of freelist_size, alloc.c:109-115, that is less than the size of a
    page; the rest is not used (alloc.c:143-148). *)
Definition sizes : list Z :=
  [8; 16; 32; 64; 96; 128; 160; 192; 224; 256; 288; 320; 352; 384; 448; 480; 576; 672; 800; 992; 1344; 2016;
   4096 - SMALL_HEADER].

(** max_small_object_size, alloc.c:147, and IS_SMALL_SIZE, 61 *)
Definition MAX_SMALL : Z := 4048.
Definition is_small (sz : Z) : bool := sz <=? MAX_SMALL.

(** sztable, alloc.c:143-146: the first list with large enough objects. *)
Fixpoint sztable_from (l : list Z) (sz : Z) : nat :=
  match l with
  | [] => O
  | c :: l => if sz <=? c then O else S (sztable_from l sz)
  end.
Definition sztable (sz : Z) : nat := sztable_from sizes sz.

(** heap_block, alloc.h:72-95: either divided into objects or one object *)
Inductive block :=
| Small (size nr avail : Z) (free : list Z)
| Large (size : Z) (mmap_block : bool).

Definition block_size (b : block) : Z := match b with Small size _ _ _ => size | Large size _ => size end.

(** heap_prim_freelist (addresses and sizes), the headers of the blocks in use,
    freelist[] (the chains through nfree), heap_total, mmap_count; and the number
    of requests made to the system. *)
Record st := St {
  prim : list (Z * Z);
  blocks : list (Z * block);
  lists : list (list Z);
  total : Z;
  mmaps : Z;
  tick : nat }.

Definition set_prim s x := St x (blocks s) (lists s) (total s) (mmaps s) (tick s).
Definition set_blocks s x := St (prim s) x (lists s) (total s) (mmaps s) (tick s).
Definition set_lists s x := St (prim s) (blocks s) x (total s) (mmaps s) (tick s).
Definition set_total s x := St (prim s) (blocks s) (lists s) x (mmaps s) (tick s).
Definition set_mmaps s x := St (prim s) (blocks s) (lists s) (total s) x (tick s).
Definition ticked s := St (prim s) (blocks s) (lists s) (total s) (mmaps s) (S (tick s)).

(** init_heap, alloc.c:130-164 *)
Definition init : st := St [] [] (map (fun _ => []) sizes) 0 0 0.

(** The headers, by address. *)
Definition get (p : Z) (l : list (Z * block)) : option block :=
  match find (fun x => fst x =? p) l with Some x => Some (snd x) | None => None end.
Definition del (p : Z) (l : list (Z * block)) : list (Z * block) := filter (fun x => negb (fst x =? p)) l.
Definition put (p : Z) (b : block) (l : list (Z * block)) : list (Z * block) := (p, b) :: del p l.

(** Assignment to an element of freelist[]. *)
Fixpoint set_nth (n : nat) (x : list Z) (l : list (list Z)) : list (list Z) :=
  match l, n with
  | [], _ => []
  | _ :: l, O => x :: l
  | y :: l, S n => y :: set_nth n x l
  end.

(** sz & (pagesize - 1) *)
Definition misaligned (x : Z) : bool := negb (Z.land x (PAGE - 1) =? 0).

(** heap_add_to_free_list, alloc.c:596-669: the loop of 619-661 and what follows it ... *)
Fixpoint insert_after (m n : Z) (l : list (Z * Z)) : list (Z * Z) :=
  match l with
  | [] => []
  | (lp, ln) :: t =>
    match t with
    | [] => if lp + ln =? m then [(lp, ln + n)] else [(lp, ln); (m, n)]
    | (np, nn) :: t' =>
      if (lp <? m) && (m <? np)
      then
        if lp + ln =? m
        then if m + n =? np then (lp, ln + (n + nn)) :: t' else (lp, ln + n) :: t
        else if m + n =? np then (lp, ln) :: (m, n + nn) :: t' else (lp, ln) :: (m, n) :: t
      else (lp, ln) :: insert_after m n t
    end
  end.
(** ... and its beginning. *)
Definition add_to_free_list (m n : Z) (l : list (Z * Z)) : list (Z * Z) :=
  match l with
  | [] => [(m, n)]
  | (f, fn) :: t =>
    if m <? f
    then if m + n =? f then (m, n + fn) :: t else (m, n) :: l
    else insert_after m n l
  end.

(** The search of heap_primitive_alloc, alloc.c:504-545: first fit. *)
Fixpoint first_fit (sz : Z) (l : list (Z * Z)) : outcome (option (Z * list (Z * Z))) :=
  match l with
  | [] => Ok None
  | (a, n) :: t =>
    if misaligned a || misaligned n then Abort
    else if sz <=? n
    then
      let left := n - sz in
      if PAGE <=? left then Ok (Some (a, (a + sz, left) :: t)) else Ok (Some (a, t))
    else
      olet r := first_fit sz t in
      match r with
      | None => Ok None
      | Some (p, t') => Ok (Some (p, (a, n) :: t'))
      end
  end.

Section Heap.
  (** What the system answers (_gst_osmem_alloc and morecore, alloc.c:694-741):
      to the n-th request, in this state, for so many bytes. *)
  Context (os : nat -> st -> Z -> option Z).
  (** heap_allocation_size and heap_limit, alloc.c:154-157 *)
  Context (chunk limit : Z).

  Definition over_limit (s : st) (sz : Z) : bool :=
    negb (limit =? 0) && (total s <=? limit) && (limit <? total s + sz).

  (** heap_primitive_alloc, alloc.c:467-551: the address and mmap_block. *)
  Definition primitive_alloc (s : st) (sz : Z) : outcome (option (Z * bool) * st) :=
    if over_limit s sz then Ok (None, s)
    else if misaligned sz then Abort
    else
      let search (s : st) :=
        olet r := first_fit sz (prim s) in
        match r with
        | None => Ok (None, s)
        | Some (p, l) => Ok (Some (p, false), set_total (set_prim s l) (total s + sz))
        end in
      if THRESHOLD <? sz
      then
        match os (tick s) s sz with
        | Some p =>
          if misaligned p then Abort
          else Ok (Some (p, true), ticked (set_mmaps (set_total s (total s + sz)) (mmaps s + 1)))
        | None => search (ticked s)
        end
      else search s.

  (** SMALL2FREE, alloc.c:54: the objects of a block *)
  Definition slots (p sz : Z) : list Z :=
    map (fun i => p + SMALL_HEADER + Z.of_nat i * sz) (seq 0 (Z.to_nat ((PAGE - SMALL_HEADER) / sz))).

  (** heap_small_block, alloc.c:418-443 *)
  Definition small_block (s : st) (sz : Z) : outcome (option Z * st) :=
    olet r := primitive_alloc s PAGE in
    match r with
    | (None, s) => Ok (None, s)
    | (Some (p, _), s) =>
      let nr := (PAGE - SMALL_HEADER) / sz in
      Ok (Some p, set_blocks s (put p (Small sz nr nr (slots p sz)) (blocks s)))
    end.

  (** heap_large_block, alloc.c:445-461 *)
  Definition large_block (s : st) (sz : Z) : outcome (option Z * st) :=
    let msz := round_page (sz + LARGE_HEADER) in
    olet r := primitive_alloc s msz in
    match r with
    | (None, s) => Ok (None, s)
    | (Some (p, mm), s) => Ok (Some p, set_blocks s (put p (Large (msz - LARGE_HEADER) mm) (blocks s)))
    end.

  (** heap_system_alloc, alloc.c:671-688; nomemory (1) exits *)
  Definition system_alloc (s : st) (sz : Z) : outcome st :=
    if misaligned sz then Abort
    else match os (tick s) s sz with
         | None => Err
         | Some p =>
           if misaligned p then Abort
           else Ok (ticked (set_prim s (add_to_free_list p sz (prim s))))
         end.

  (** _gst_mem_alloc for small objects, alloc.c:183-233: an object, or None and
      the size that was asked for in vain. *)
  Definition take (s : st) (lnr : nat) (p : Z) (rest : list Z) : outcome (Z * st) :=
    match get p (blocks s) with
    | Some (Small size nr avail (m :: fr)) =>
      if (avail =? 0) || (m <=? p) || (p + PAGE <=? m) then Abort
      else
        let s := set_blocks s (put p (Small size nr (avail - 1) fr) (blocks s)) in
        let s := match fr with [] => set_lists s (set_nth lnr rest (lists s)) | _ => s end in
        Ok (m, s)
    | Some (Small _ _ _ []) => Abort
    | _ => UB
    end.

  Definition alloc_small (s : st) (sz : Z) : outcome (option Z * st) :=
    let sz := round_align sz in
    let lnr := sztable sz in
    let nsz := nth lnr sizes 0 in
    match nth lnr (lists s) [] with
    | p :: rest => olet r := take s lnr p rest in Ok (Some (fst r), snd r)
    | [] =>
      olet r := small_block s nsz in
      match r with
      | (None, s) => Ok (None, s)
      | (Some p, s) =>
        if misaligned p then Abort
        else
          olet r := take (set_lists s (set_nth lnr [p] (lists s))) lnr p [] in
          Ok (Some (fst r), snd r)
      end
    end.

  Definition alloc_large (s : st) (sz : Z) : outcome (option Z * st) :=
    olet r := large_block s sz in
    match r with
    | (None, s) => Ok (None, s)
    | (Some p, s) => Ok (Some (p + LARGE_HEADER), s)
    end.

  (** _gst_mem_alloc, alloc.c:167-291; [more] is the number of attempts that
      are left: after the first two the system is asked for memory. *)
  Fixpoint attempt (more : nat) (s : st) (sz : Z) : outcome (option Z * st) :=
    olet r := if is_small sz then alloc_small s sz else alloc_large s sz in
    match r with
    | (Some m, s) =>
      match get (mem2block m) (blocks s) with
      | None => UB
      | Some b =>
        if block_size b <? (if is_small sz then round_align sz else sz) then Abort else Ok (Some m, s)
      end
    | (None, s) =>
      match more with
      | O => Ok (None, s)
      | S more =>
        let nsz := if is_small sz then PAGE else round_page (sz + LARGE_HEADER) in
        if (limit =? 0) || (total s <? limit)
        then olet s := system_alloc s (Z.max nsz chunk) in attempt more s sz
        else Ok (None, s)
      end
    end.
  Definition mem_alloc (s : st) (sz : Z) : outcome (option Z * st) := attempt 2 s sz.

  (** heap_primitive_free, alloc.c:574-594, on a block whose header has been taken
      out of the table *)
  Definition primitive_free (s : st) (p size : Z) (mm : bool) : outcome st :=
    if misaligned size then Abort
    else
      let s := set_total s (uwrap64 (total s - size)) in
      if mm then Ok s
      else if misaligned p then Abort
      else Ok (set_prim s (add_to_free_list p size (prim s))).

  (** The search of alloc.c:386-401 *)
  Fixpoint unlink (p : Z) (l : list Z) : outcome (list Z) :=
    match l with
    | [] => UB
    | x :: t => if x =? p then Ok t else match t with [] => Abort | _ => olet t := unlink p t in Ok (x :: t) end
    end.

  (** _gst_mem_free, alloc.c:337-415: msz is an int, compared as a size_t. *)
  Definition mem_free (s : st) (mem : Z) : outcome st :=
    if mem =? 0 then Ok s
    else
      let p := mem2block mem in
      match get p (blocks s) with
      | None => UB
      | Some b =>
        let msz := wrap32 (block_size b) in
        if is_small (uwrap64 msz)
        then
          match b with
          | Large _ _ => UB
          | Small size nr avail fr =>
            let lnr := sztable msz in
            if misaligned p then Abort
            else
              let avail := avail + 1 in
              let s := if avail =? 1 then set_lists s (set_nth lnr (p :: nth lnr (lists s) []) (lists s)) else s in
              if (mem <? p) || (p + PAGE <=? mem) || match fr with m :: _ => m =? mem | [] => false end then Abort
              else if nr <? avail then Abort
              else if avail =? nr
              then
                olet l := unlink p (nth lnr (lists s) []) in
                primitive_free (set_blocks (set_lists s (set_nth lnr l (lists s))) (del p (blocks s))) p PAGE false
              else Ok (set_blocks s (put p (Small size nr avail (mem :: fr)) (blocks s)))
          end
        else
          match b with
          | Small _ _ _ _ => UB
          | Large _ mm =>
            let msz := wrap32 (round_page (msz + LARGE_HEADER)) in
            let s := set_mmaps s (mmaps s - (if mm then 1 else 0)) in
            primitive_free (set_blocks s (del p (blocks s))) p (uwrap64 msz) mm
          end
      end.

  (** _gst_mem_realloc, alloc.c:294-335 (the int pages_to_free is not
      truncated for blocks of less than 2^43 bytes): memcpy to a null pointer
      is undefined. *)
  Definition mem_realloc (s : st) (mem sz : Z) : outcome (option Z * st) :=
    if mem =? 0 then mem_alloc s sz
    else if sz =? 0 then olet s := mem_free s mem in Ok (None, s)
    else
      let p := mem2block mem in
      match get p (blocks s) with
      | None => UB
      | Some b =>
        if block_size b <? sz
        then
          olet r := mem_alloc s sz in
          match r with
          | (None, _) => UB
          | (Some m, s) => olet s := mem_free s mem in Ok (Some m, s)
          end
        else if is_small (block_size b) then Ok (Some mem, s)
        else
          match b with
          | Small _ _ _ _ => UB
          | Large size mm =>
            let n := (size - sz) / PAGE in
            if n =? 0 then Ok (Some mem, s)
            else
              let size' := size - n * PAGE in
              let s := set_blocks s (put p (Large size' mm) (blocks s)) in
              olet s := primitive_free s (p + LARGE_HEADER + size') (n * PAGE) mm in
              Ok (Some mem, s)
          end
      end.
End Heap.
