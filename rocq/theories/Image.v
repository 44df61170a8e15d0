(** Saving the image to a file and loading it: libgst/save.c.
    64-bit machines only, of either endianness.  A word is a Z in [0, 2^64).
    Left out: the settings of the spaces (passed through the header as opaque
    words), what _gst_init_dictionary_on_image_load does afterwards, weak
    objects being entered in their tree, counters of statistics. *)
From Verif Require Import Base.
From Coq Require Import String Ascii.
Local Open Scope list_scope.
Local Open Scope Z_scope.

(** length of a list as a C integer; vocabulary *)
Definition len {A} (l : list A) : Z := Z.of_nat (List.length l).

(** * Bytes and words *)

(** the eight bytes of a word in memory: least significant first, or, on a
    big-endian machine, last; libgst/save.c:66-70 distinguishes the two *)
Fixpoint le_bytes (n : nat) (w : Z) : list Z :=
  match n with O => [] | S n => w mod 256 :: le_bytes n (w / 256) end.
Fixpoint le_word (bs : list Z) : Z :=
  match bs with [] => 0 | b :: bs => b + 256 * le_word bs end.
Definition bytes_of (big : bool) (w : Z) : list Z :=
  if big then rev (le_bytes 8 w) else le_bytes 8 w.
Definition word_of (big : bool) (bs : list Z) : Z :=
  if big then le_word (rev bs) else le_word bs.

(** words laid out in memory, and words found there *)
Definition bytes_of_words (big : bool) (ws : list Z) : list Z := flat_map (bytes_of big) ws.
Fixpoint words_of_bytes (big : bool) (n : nat) (bs : list Z) : list Z :=
  match n with
  | O => []
  | S n => word_of big (firstn 8 bs) :: words_of_bytes big n (skipn 8 bs)
  end.

(** libgst/gstpriv.h:527-542, BYTE_INVERT *)
Definition byte_invert (x : Z) : Z :=
  Z.lor (Z.shiftl (Z.land x 0x00000000000000ff) 56)
 (Z.lor (Z.shiftl (Z.land x 0x000000000000ff00) 40)
 (Z.lor (Z.shiftl (Z.land x 0x0000000000ff0000) 24)
 (Z.lor (Z.shiftl (Z.land x 0x00000000ff000000) 8)
 (Z.lor (Z.shiftr (Z.land x 0x000000ff00000000) 8)
 (Z.lor (Z.shiftr (Z.land x 0x0000ff0000000000) 24)
 (Z.lor (Z.shiftr (Z.land x 0x00ff000000000000) 40)
        (Z.shiftr (Z.land x 0xff00000000000000) 56))))))).

(** libgst/save.c:802-809, fixup_byte_order: inverts the first [n] words *)
Definition fixup_byte_order (n : nat) (ws : list Z) : list Z :=
  map byte_invert (firstn n ws) ++ skipn n ws.

(** * Memory *)

(** libgst/gst.h:133-155, an object: objSize, objClass and data words *)
Record object := Obj { osize : Z; oclass : Z; odata : list Z }.

(** libgst/gst.h:121-126, struct oop_s; the pointer to the object is replaced
    by the object *)
Record slot := Slot { sflags : Z; sobj : object }.

(** The object table: the address ot_base of its first entry, and the entries
    from _gst_mem.ot on, that is without the 259 characters and nil, true,
    false that come before (libgst/oop.h:68-73, libgst/oop.c:469-489); the
    class of nil; and the live_flags of libgst/oop.h *)
Record memory := Mem { ot_base : Z; table : list slot; nil_class : Z; live_flags : Z }.

(** classes the code knows by name: _gst_callin_process_class,
    _gst_process_class, _gst_semaphore_class, _gst_file_descriptor_class,
    _gst_c_callable_class; libgst/save.c:715-771 *)
Record roles := Roles { callin_process_class : Z; process_class : Z; semaphore_class : Z;
                        file_descriptor_class : Z; c_callable_class : Z }.

(** address of the entry with an index; libgst/oop.h:71, libgst/oop.c:481 *)
Definition oop_at (base i : Z) : Z := uwrap64 (base + 16 * (i + 259)).

(** libgst/oop.h:89, _gst_nil_oop *)
Definition nil_oop (base : Z) : Z := oop_at base (-3).

(** libgst/gstpriv.h:496-500, FROM_INT and TO_INT *)
Definition from_int (i : Z) : Z := uwrap64 (2 * i + 1).
Definition to_int (w : Z) : Z := Z.shiftr (wrap64 w) 1.

(** libgst/gst.h:166-177, IS_INT and IS_OOP *)
Definition is_int (w : Z) : bool := Z.odd w.

(** the bits of libgst/gstpriv.h:263-343 *)
Definition F_LIVE_AT_START : Z := 0x40100.
Definition F_RUNTIME : Z := 0x7FFF8000.
Definition F_CONTEXT : Z := 0x40.
Definition F_OLD : Z := 0x100.
Definition F_LOADED : Z := 0x800.
Definition F_BYTE : Z := 15.

(** whether some of the bits of a mask are set *)
Definition any (flags mask : Z) : bool := negb (Z.land flags mask =? 0).

(** libgst/oop.inl:79-80, IS_OOP_VALID_GC *)
Definition valid (m : memory) (s : slot) : bool := any (sflags s) (live_flags m).

(** OOP_TO_OBJ, libgst/gst.h:156-157, of an entry from index 0 on.  Other
    addresses, and free entries, have no object in this model. *)
Definition obj_at (m : memory) (w : Z) : outcome object :=
  let d := w - ot_base m in
  let i := d / 16 - 259 in
  if (d mod 16 =? 0) && (0 <=? i) && (i <? len (table m)) then
    match nth_error (table m) (Z.to_nat i) with
    | Some s => if sflags s =? 0 then UB else Ok (sobj s)
    | None => UB
    end
  else UB.

(** the n-th data word; reading past the end is undefined *)
Definition field (o : object) (n : nat) : outcome Z :=
  match nth_error (odata o) n with Some w => Ok w | None => UB end.

(** writing the n-th data word *)
Fixpoint put (n : nat) (w : Z) (l : list Z) : outcome (list Z) :=
  match l, n with
  | [], _ => UB
  | _ :: l, O => Ok (w :: l)
  | x :: l, S n => olet l := put n w l in Ok (x :: l)
  end.
Definition set_field (o : object) (n : nat) (w : Z) : outcome object :=
  olet d := put n w (odata o) in Ok (Obj (osize o) (oclass o) d).

(** OOP_CLASS, libgst/gst.h:161-162 *)
Definition class_of (m : memory) (w : Z) : outcome Z :=
  if w =? nil_oop (ot_base m) then Ok (nil_class m)
  else olet o := obj_at m w in Ok (oclass o).

(** libgst/dict.inl:619-632, is_a_kind_of *)
Fixpoint is_a_kind_of (fuel : nat) (m : memory) (tested cls : Z) : outcome bool :=
  match fuel with
  | O => OutOfFuel
  | S fuel =>
    if tested =? cls then Ok true
    else
      olet o := obj_at m tested in
      olet super := field o 0 in
      if super =? nil_oop (ot_base m) then Ok false else is_a_kind_of fuel m super cls
  end.

(** libgst/dict.inl:429-430, CLASS_INSTANCE_SPEC *)
Definition instance_spec (m : memory) (cls : Z) : outcome Z :=
  olet o := obj_at m cls in
  olet w := field o 2 in Ok (wrap64 w).

(** libgst/dict.inl:358-359, CLASS_FIXED_FIELDS *)
Definition fixed_fields (spec : Z) : Z := Z.shiftr spec 13.

(** libgst/dict.inl:456-458, CLASS_IS_SCALAR *)
Definition is_scalar (spec : Z) : bool := any spec 32 && (Z.land spec 62 <=? 54).

(** libgst/dict.inl:471-480, NUM_OOPS *)
Definition num_oops (m : memory) (o : object) : outcome Z :=
  olet spec := instance_spec m (oclass o) in
  Ok (if is_scalar spec then fixed_fields spec else to_int (osize o) - 2).

(** * Buffered writing *)

(** The file: what has been written, and how many calls to write() there have
    been; the results of these calls are given by an oracle, a number of bytes
    or something not positive for an error. *)
Record writer := Writer { wbuf : list Z; wout : list Z; wcalls : nat }.

(** libgst/save.c:819-838, full_write.  Err stands for the longjmp. *)
Fixpoint full_write (fuel : nat) (results : nat -> Z) (data out : list Z) (calls : nat)
  : outcome (list Z * nat) :=
  match data with
  | [] => Ok (out, calls)
  | _ =>
    match fuel with
    | O => OutOfFuel
    | S fuel =>
      let num := results calls in
      if num <=? 0 then Err
      else let n := Z.to_nat (Z.min num (len data)) in
           full_write fuel results (skipn n data) (out ++ firstn n data) (S calls)
    end
  end.

(** libgst/save.c:58, WRITE_BUFFER_SIZE *)
Definition write_buffer_size : Z := 65536.

(** libgst/save.c:848-866, buffer_write; buf_pos is the length of [wbuf] *)
Definition buffer_write (results : nat -> Z) (data : list Z) (w : writer) : outcome writer :=
  if 2 ^ 31 <=? len (wbuf w) + len data then UB
  else
    olet w :=
      if write_buffer_size <? len (wbuf w) + len data then
        olet (out, calls) := full_write (List.length (wbuf w)) results (wbuf w) (wout w) (wcalls w) in
        Ok (Writer [] out calls)
      else Ok w in
    if write_buffer_size <? len data then
      olet (out, calls) := full_write (List.length data) results data (wout w) (wcalls w) in
      Ok (Writer (wbuf w) out calls)
    else Ok (Writer (wbuf w ++ data) (wout w) (wcalls w)).

(** libgst/save.c:840-846, buffer_write_flush *)
Definition buffer_write_flush (results : nat -> Z) (w : writer) : outcome (list Z) :=
  olet (out, _) := full_write (List.length (wbuf w)) results (wbuf w) (wout w) (wcalls w) in Ok out.

(** * Saving *)

(** libgst/save.c:731-739, the next link of a Process: CallinProcesses are
    skipped.  [link] is the nextLink at hand. *)
Fixpoint skip_callins (fuel : nat) (m : memory) (r : roles) (link : Z) : outcome Z :=
  match fuel with
  | O => OutOfFuel
  | S fuel =>
    olet c := class_of m link in
    if c =? callin_process_class r then
      olet o := obj_at m link in
      olet next := field o 0 in
      skip_callins fuel m r next
    else Ok link
  end.

(** libgst/save.c:749-762, the first and last links of a Semaphore without the
    CallinProcesses *)
Fixpoint semaphore_links (fuel : nat) (m : memory) (r : roles) (link first last : Z)
  : outcome (Z * Z) :=
  match fuel with
  | O => OutOfFuel
  | S fuel =>
    if link =? nil_oop (ot_base m) then Ok (first, last)
    else
      olet o := obj_at m link in
      olet next := field o 0 in
      if negb (oclass o =? callin_process_class r) then
        semaphore_links fuel m r next
          (if first =? nil_oop (ot_base m) then link else first) link
      else semaphore_links fuel m r next first last
  end.

(** libgst/save.c:692-773, fixup_object *)
Definition fixup_object (fuel : nat) (m : memory) (r : roles) (s : slot) : outcome object :=
  let o := sobj s in
  let nil := nil_oop (ot_base m) in
  if any (sflags s) F_CONTEXT then set_field o 1 (from_int 0)
  else if oclass o =? callin_process_class r then
    olet o := set_field o 1 nil in
    olet o := set_field o 0 nil in
    set_field o 3 nil
  else if oclass o =? process_class r then
    olet link := field o 0 in
    olet next := skip_callins fuel m r link in
    set_field o 0 next
  else if oclass o =? semaphore_class r then
    olet link := field o 0 in
    olet (f, l) := semaphore_links fuel m r link nil nil in
    olet o := set_field o 0 f in
    set_field o 1 l
  else
    olet fd := is_a_kind_of fuel m (oclass o) (file_descriptor_class r) in
    if fd then set_field o 1 nil
    else
      olet cc := is_a_kind_of fuel m (oclass o) (c_callable_class r) in
      if cc then
        olet storage := field o 1 in
        if storage =? nil then set_field o (List.length (odata o) - 1) 0 else Ok o
      else Ok o.

(** libgst/save.c:356-366, num_used_oops *)
Fixpoint used_oops (m : memory) (t : list slot) (i used : nat) : nat :=
  match t with
  | [] => used
  | s :: t => used_oops m t (S i) (if valid m s then S i else used)
  end.

(** libgst/save.c:374-388, the entries of the table in the file: object word
    and flags.  The object word of a free entry is whatever xmalloc left. *)
Definition table_entry (junk : Z) (m : memory) (s : slot) : list Z :=
  if valid m s
  then [to_int (osize (sobj s)); Z.lor (Z.ldiff (sflags s) F_RUNTIME) F_OLD]
  else [junk; 0].

(** libgst/save.c:95-96 and 438-443, the first 64 and the next 6 bytes of the
    header, then the unused byte and the flags: 2 says that words have 64 bits,
    1 that the machine is big-endian *)
Fixpoint chars (s : string) : list Z :=
  match s with EmptyString => [] | String c s => Z.of_N (N_of_ascii c) :: chars s end.
Definition quote : string := String (ascii_of_N 34) "".
Definition newline : string := String (ascii_of_N 10) "".
Definition execute : string :=
  "#! /usr/bin/env gst -aI" ++ newline ++ "exec gst -I " ++ quote ++ "$0" ++ quote ++ " -a "
  ++ quote ++ "$@" ++ quote ++ newline.
Definition signature : string := "GSTIm".
Definition pad (n : nat) (l : list Z) : list Z := l ++ repeat 0 (n - List.length l).
Definition flags_written (big : bool) : Z := Z.lor (if big then 1 else 0) 2.
Definition header_text (big : bool) : list Z :=
  pad 64 (chars execute) ++ pad 6 (chars signature) ++ [0; flags_written big].

(** The words of the header, libgst/save.c:103-116: version, number of entries
    of the table, six settings of the spaces, number of free entries, ot_base and
    the checksum of the primitives.  The model does not interpret [settings] and
    [md5]. *)
Record header := Header { version : Z; oop_table_size : Z; settings : list Z;
                          num_free_oops : Z; h_ot_base : Z; md5 : list Z }.
Definition header_words (h : header) : list Z :=
  version h :: oop_table_size h :: settings h ++ num_free_oops h :: h_ot_base h :: md5 h.

(** libgst/save.c:404-435, save_object: [numBytes] is an int *)
Definition save_object (fuel : nat) (results : nat -> Z) (big : bool) (r : roles) (m : memory)
    (s : slot) (w : writer) : outcome writer :=
  if sflags s =? 0 then Abort
  else if 2 ^ 31 <=? 8 * to_int (osize (sobj s)) then UB
  else
    olet o := fixup_object fuel m r s in
    buffer_write results (bytes_of_words big (osize o :: oclass o :: odata o)) w.

(** libgst/save.c:393-402, save_all_objects *)
Fixpoint save_all_objects (fuel : nat) (results : nat -> Z) (big : bool) (r : roles) (m : memory)
    (t : list slot) (w : writer) : outcome writer :=
  match t with
  | [] => Ok w
  | s :: t =>
    olet w := if valid m s then save_object fuel results big r m s w else Ok w in
    save_all_objects fuel results big r m t w
  end.

(** libgst/save.c:314-349 with 352-391 and 437-456: save_to_fd.  Answers the
    contents of the file. *)
Definition save_to_fd (fuel : nat) (results : nat -> Z) (big : bool) (vers : Z)
    (sets sums : list Z) (junk : Z) (r : roles) (m : memory) : outcome (list Z) :=
  let used := used_oops m (table m) 0 0 in
  let t := firstn used (table m) in
  let free := List.filter (fun s => negb (valid m s)) t in
  let h := Header vers (Z.of_nat used) sets (len free) (ot_base m) sums in
  olet w := buffer_write results (header_text big ++ bytes_of_words big (header_words h))
              (Writer [] [] 0%nat) in
  olet w := buffer_write results (bytes_of_words big (flat_map (table_entry junk m) t)) w in
  olet w := save_all_objects fuel results big r m t w in
  buffer_write_flush results w.

(** * Buffered reading *)

(** The mapped file, or the buffer with the part of the file read last; the
    position in it; the position of the descriptor in the file. *)
Record reader := Reader { mapped : bool; rbuf : list Z; rpos : Z; rfile : list Z; rfd : Z }.

(** libgst/save.c:57, READ_BUFFER_SIZE *)
Definition read_buffer_size : Z := 524288.

(** the variable buf_size *)
Definition rsize (r : reader) : Z := if mapped r then len (rfile r) else read_buffer_size.

(** part of a list, from and size *)
Definition part (from n : Z) (l : list Z) : list Z := firstn (Z.to_nat n) (skipn (Z.to_nat from) l).

(** libgst/save.c:868-873, buffer_fill *)
Definition buffer_fill (r : reader) : reader :=
  Reader (mapped r) (part (rfd r) (rsize r) (rfile r)) 0 (rfile r)
         (Z.min (rfd r + rsize r) (len (rfile r))).

(** libgst/save.c:875-904, buffer_read_init.  The size of a file is stored into
    an int. *)
Definition buffer_read_init (map : bool) (file : list Z) : outcome reader :=
  if map then
    if 2 ^ 31 <=? len file then UB else Ok (Reader true file 0 file 0)
  else Ok (buffer_fill (Reader false [] 0 file 0)).

(** libgst/save.c:915-922, buffer_advance, with the memory it points to *)
Definition buffer_advance (n : Z) (r : reader) : outcome (list Z * reader) :=
  if len (rbuf r) <? rpos r + n then UB
  else Ok (part (rpos r) n (rbuf r), Reader (mapped r) (rbuf r) (rpos r + n) (rfile r) (rfd r)).

(** libgst/save.c:924-952, buffer_read.  Bytes that are not in the file are
    never stored into the data read: UB. *)
Definition buffer_read (n : Z) (r : reader) : outcome (list Z * reader) :=
  if (2 ^ 31 <=? n) || (n <? 0) then UB
  else if rsize r - rpos r <? n then
    if mapped r || (len (rbuf r) <? rsize r) then UB
    else
      let d1 := part (rpos r) (rsize r - rpos r) (rbuf r) in
      let n := n - (rsize r - rpos r) in
      let big := if rsize r <? n then Z.land n (- rsize r) else 0 in
      let d2 := part (rfd r) big (rfile r) in
      if len d2 <? big then UB
      else
        let r := buffer_fill (Reader (mapped r) (rbuf r) 0 (rfile r) (rfd r + big)) in
        let n := n - big in
        if len (rbuf r) <? n then UB
        else Ok (d1 ++ d2 ++ part 0 n (rbuf r), Reader (mapped r) (rbuf r) n (rfile r) (rfd r))
  else buffer_advance n r.

(** * Loading *)

(** libgst/save.c:538-576, load_file_version; answers the header and whether
    its bytes are in the other order, or None if it is refused *)
Definition load_file_version (big : bool) (vers : Z) (r : reader)
  : outcome (option (header * bool) * reader) :=
  olet (bs, r) := buffer_read 168 r in
  let flags := nth 71 bs 0 in
  if negb (forallb (fun '(a, b) => a =? b) (combine (part 64 6 bs) (pad 6 (chars signature)))) then Ok (None, r)
  else if any (Z.lxor flags 2) 2 then Ok (None, r)
  else
    let wrong := any (Z.lxor flags (if big then 1 else 0)) 1 in
    let ws := words_of_bytes big 12 (skipn 72 bs) in
    let ws := if wrong then fixup_byte_order 12 ws else ws in
    let h := Header (nth 0 ws 0) (nth 1 ws 0) (firstn 6 (skipn 2 ws)) (nth 8 ws 0) (nth 9 ws 0)
                    (skipn 10 ws) in
    if vers <? version h then Ok (None, r) else Ok (Some (h, wrong), r).

(** libgst/save.c:578-587, load_oop_table: pairs of object word and flags *)
Fixpoint pairs (ws : list Z) : list (Z * Z) :=
  match ws with a :: b :: ws => (a, b) :: pairs ws | _ => [] end.
Definition load_oop_table (big wrong : bool) (used : Z) (r : reader)
  : outcome (list (Z * Z) * reader) :=
  olet (bs, r) := buffer_read (16 * used) r in
  let n := Z.to_nat (2 * used) in
  let ws := words_of_bytes big n bs in
  Ok (pairs (if wrong then fixup_byte_order n ws else ws), r).

(** the words of an object *)
Definition object_of (ws : list Z) : outcome object :=
  match ws with size :: cls :: data => Ok (Obj size cls data) | _ => UB end.

(** libgst/save.c:609-661, the loop that loads the objects.  With copy on write
    the object stays where the file is mapped. *)
Fixpoint load_objects (big wrong cow : bool) (t : list (Z * Z)) (r : reader)
  : outcome (list slot * reader) :=
  match t with
  | [] => Ok ([], r)
  | (n, flags) :: t =>
    if flags =? 0 then
      olet (ss, r) := load_objects big wrong cow t r in
      Ok (Slot 0 (Obj 0 0 []) :: ss, r)
    else if cow then
      olet (bs, r) := buffer_advance (8 * n) r in
      olet o := object_of (words_of_bytes big (Z.to_nat n) bs) in
      olet (ss, r) := load_objects big wrong cow t r in
      Ok (Slot (Z.lor flags F_LOADED) o :: ss, r)
    else
      olet (bs, r) := buffer_read (8 * n) r in
      let ws := words_of_bytes big (Z.to_nat n) bs in
      let ws := if wrong then fixup_byte_order (if any flags F_BYTE then 2 else Z.to_nat n) ws
                else ws in
      olet o := object_of ws in
      if negb (osize o =? from_int n) then Abort
      else
        olet (ss, r) := load_objects big wrong cow t r in
        Ok (Slot flags o :: ss, r)
  end.

(** a table with one entry changed *)
Fixpoint replace_slot (i : nat) (s : slot) (t : list slot) : list slot :=
  match t, i with
  | [], _ => []
  | _ :: t, O => s :: t
  | x :: t, S i => x :: replace_slot i s t
  end.
Definition with_slot (m : memory) (i : nat) (s : slot) : memory :=
  Mem (ot_base m) (replace_slot i s (table m)) (nil_class m) (live_flags m).

(** libgst/save.c:235-237, OOP_ABSOLUTE *)
Definition oop_absolute (delta w : Z) : Z := uwrap64 (w + delta).

(** an action on all entries of the table, from index [i] on, [n] of them *)
Fixpoint over_table (f : memory -> slot -> outcome slot) (n i : nat) (m : memory) : outcome memory :=
  match n with
  | O => Ok m
  | S n =>
    match nth_error (table m) i with
    | None => UB
    | Some s => olet s := f m s in over_table f n (S i) (with_slot m i s)
    end
  end.

(** libgst/save.c:670-677, the fixed fields of objects with bytes *)
Definition fixup_bytes_object (delta : Z) (m : memory) (s : slot) : outcome slot :=
  if any (sflags s) F_BYTE then
    olet spec := instance_spec m (oop_absolute delta (oclass (sobj s))) in
    let n := fixed_fields spec in
    if (n <? 0) || (len (odata (sobj s)) <? n) then UB
    else Ok (Slot (sflags s) (Obj (osize (sobj s)) (oclass (sobj s))
                                  (fixup_byte_order (Z.to_nat n) (odata (sobj s)))))
  else Ok s.

(** libgst/save.c:786-800, restore_oop_pointer_slots, and the test of 782 *)
Definition restore_oop_pointer_slots (delta : Z) (m : memory) (s : slot) : outcome slot :=
  if valid m s then
    let o := Obj (osize (sobj s)) (oop_absolute delta (oclass (sobj s))) (odata (sobj s)) in
    olet n := num_oops m o in
    if (n <? 0) || (len (odata o) <? n) then UB
    else
      let k := Z.to_nat n in
      Ok (Slot (sflags s) (Obj (osize o) (oclass o)
            (map (fun w => if is_int w then w else oop_absolute delta w) (firstn k (odata o))
             ++ skipn k (odata o))))
  else Ok s.

(** libgst/save.c:479-536, load_snapshot.  [base] is where the table is
    allocated.  [sigsegv]: the system can catch access violations, so that
    copy on write may be used; the condition is that of lines 597-602, where
    the complement of the flag is taken instead of its negation. *)
Definition use_copy_on_write (sigsegv map wrong : bool) (delta : Z) : bool :=
  sigsegv && map && negb (Z.lnot (if wrong then 1 else 0) =? 0) && (delta =? 0).

Definition load_snapshot (sigsegv map big : bool) (vers nilc base : Z) (file : list Z)
  : outcome (option (header * memory)) :=
  olet r := buffer_read_init map file in
  olet (h, r) := load_file_version big vers r in
  match h with
  | None => Ok None
  | Some (h, wrong) =>
    let delta := wrap64 (base - h_ot_base h) in
    let used := wrap32 (oop_table_size h) in
    olet (t, r) := load_oop_table big wrong used r in
    olet (ss, r) := load_objects big wrong (use_copy_on_write sigsegv map wrong delta) t r in
    let m := Mem base ss nilc F_LIVE_AT_START in
    let n := List.length ss in
    olet m := if wrong then over_table (fixup_bytes_object delta) n 0 m else Ok m in
    olet m := if delta =? 0 then Ok m else over_table (restore_oop_pointer_slots delta) n 0 m in
    Ok (Some (h, m))
  end.

(** * The file *)

(** libgst/save.c:276-312, _gst_save_to_file: whether it succeeds, and what is
    under the name afterwards.  [opened] is whether the file can be created. *)
Definition save_to_file (fuel : nat) (results : nat -> Z) (opened big : bool) (vers : Z)
    (sets sums : list Z) (junk : Z) (r : roles) (m : memory) (old : option (list Z))
  : outcome (bool * option (list Z)) :=
  if opened then
    match save_to_fd fuel results big vers sets sums junk r m with
    | Ok file => Ok (true, Some file)
    | Err => Ok (false, None)
    | UB => UB
    | Abort => Abort
    | OutOfFuel => OutOfFuel
    end
  else Ok (false, None).
