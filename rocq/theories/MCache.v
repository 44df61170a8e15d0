(** The method cache of the byte-code interpreter and the inline caches of #at:, #at:put:, #size and #class.
    Not modelled: contexts, argument counts, the JIT, methods with MTH_USER_DEFINED headers. *)
From Verif Require Import Base Hashed.

(** A CompiledMethod: its identity and the primitive in its header (0 if none), libgst/interp.h:128-140. *)
Record method : Type := Method { m_oop : Z; m_prim : Z }.
(** Classes and selectors are OOPs. The superclass and the method dictionary of every class
    (libgst/dict.inl:349-350, libgst/dict.c:1417-1442; C18 is about the dictionaries themselves). *)
Record world : Type := World { super : Z -> option Z; dict : Z -> Z -> option method }.
(** method_cache_entry, libgst/interp.h:128-140; None is a NULL selector. The header is the method's. *)
Record entry : Type := Entry { e_sel : option Z; e_class : Z; e_method : method; e_mclass : Z }.
(** Special selectors with an inline cache, libgst/vm.def:442-573. *)
Inductive special : Type := SAt | SAtPut | SSize | SClass.
(** The caches, libgst/interp.c:218-239, and _gst_sample_counter, libgst/interp.c:163. An inline cache holds
    a class and a primitive. *)
Record vm : Type := VM {
  hier : world; cache : list entry; counter : Z; inline : special -> option (Z * Z) }.

(** What a send does: run a primitive that succeeds, or activate a method. [NotUnderstood] is the same for
    doesNotUnderstand:. *)
Inductive event : Type := Primitive (p : Z) | Activate (m : method) | NotUnderstood (e : event).

Section Model.
  (** The number of OOPs of doesNotUnderstand: and of #at:, #at:put:, #size and #class (libgst/sym.c:275,
      _gst_builtin_selectors). *)
  Variables (dnu : Z) (selector_of : special -> Z).
  Definition METHOD_CACHE_SIZE : Z := 2 ^ 11.
  (** METHOD_CACHE_HASH, libgst/interp.c:571-573. *)
  Definition cache_hash (sel cls : Z) : Z := Z.land (Z.lxor sel (Z.quot cls 16)) (METHOD_CACHE_SIZE - 1).
  (** _gst_find_method, libgst/interp.c:945-977; the fuel bounds the length of the superclass chain. *)
  Fixpoint find_method (fuel : nat) (w : world) (c sel : Z) : outcome (option (method * Z)) :=
    match fuel with
    | O => OutOfFuel
    | S fuel =>
      match dict w c sel with
      | Some m => Ok (Some (m, c))
      | None => match super w c with None => Ok None | Some p => find_method fuel w p sel end
      end
    end.
  (** method_cache[i], an array of METHOD_CACHE_SIZE entries (libgst/interp.c:218). *)
  Definition cache_at (l : list entry) (i : Z) : outcome entry :=
    if i <? 0 then UB else match nth_error l (Z.to_nat i) with Some e => Ok e | None => UB end.
  Definition empty_entry : entry := Entry None 0 (Method 0 0) 0.
  (** Look in the cache, then in the hierarchy; a method found in the hierarchy is cached
      (libgst/interp-bc.inl:194-213, libgst/interp.c:915-942). *)
  Definition cached_find (fuel : nat) (v : vm) (sel cls : Z) : outcome (vm * option method) :=
    let i := cache_hash sel cls in
    olet e := cache_at (cache v) i in
    match e_sel e with
    | Some s => if (s =? sel) && (e_class e =? cls) then Ok (v, Some (e_method e)) else
      olet r := find_method fuel (hier v) cls sel in
      match r with
      | Some (m, mc) => Ok (VM (hier v) (replace (Z.to_nat i) (Entry (Some sel) cls m mc) (cache v)) (counter v) (inline v), Some m)
      | None => Ok (v, None)
      end
    | None =>
      olet r := find_method fuel (hier v) cls sel in
      match r with
      | Some (m, mc) => Ok (VM (hier v) (replace (Z.to_nat i) (Entry (Some sel) cls m mc) (cache v)) (counter v) (inline v), Some m)
      | None => Ok (v, None)
      end
    end.
  (** An unsigned long is incremented (libgst/interp-bc.inl:194, 324). *)
  Definition count (v : vm) : vm := VM (hier v) (cache v) (uwrap64 (counter v + 1)) (inline v).
  (** Running the method found, libgst/interp-bc.inl:245-308; [ok] is whether its primitive, if any, succeeds. *)
  Definition run_method (m : method) (ok : bool) : event :=
    if (m_prim m =? 0) || negb ok then Activate m else Primitive (m_prim m).
  (** last_primitive after a send that started with 0, libgst/interp-bc.inl:276-283, libgst/interp.c:2733-2741. *)
  Definition last_primitive (m : method) (ok : bool) : Z := if ok then m_prim m else 0.
  (** _gst_send_message_internal, libgst/interp-bc.inl:177-312; answers also last_primitive. Without a method
      for doesNotUnderstand: it calls itself for ever, which is UB (the C stack overflows). *)
  Definition send (fuel : nat) (v : vm) (sel cls : Z) (ok : bool) : outcome (vm * (event * Z)) :=
    olet (v, r) := cached_find fuel (count v) sel cls in
    match r with
    | Some m => Ok (v, (run_method m ok, last_primitive m ok))
    | None =>
      olet (v, r) := cached_find fuel (count v) dnu cls in
      match r with
      | Some m => Ok (v, (NotUnderstood (run_method m ok), last_primitive m ok))
      | None => UB
      end
    end.
  (** Whether the primitive left by the send goes in the inline cache, libgst/vm.def:467, 500, 533, 566. *)
  Definition cacheable (k : special) (p : Z) : bool :=
    match k with SAt => p =? 60 | SAtPut => p =? 61 | SSize | SClass => negb (p =? 0) end.
  Definition set_inline (v : vm) (k : special) (x : Z * Z) : vm :=
    VM (hier v) (cache v) (counter v)
      (fun k' => match k, k' with SAt, SAt | SAtPut, SAtPut | SSize, SSize | SClass, SClass => Some x | _, _ => inline v k' end).
  (** The byte-codes for the special selectors, libgst/vm.def:442-573, for a receiver that is not a SmallInteger. *)
  Definition send_special (fuel : nat) (v : vm) (k : special) (cls : Z) (ok : bool) : outcome (vm * event) :=
    let slow :=
      olet (v, (e, p)) := send fuel v (selector_of k) cls ok in
      Ok (if cacheable k p then set_inline v k (cls, p) else v, e) in
    match inline v k with
    | Some (c, p) => if (c =? cls) && ok then Ok (v, Primitive p) else slow
    | None => slow
    end.
  (** _gst_invalidate_method_cache, libgst/interp.c:2352-2380. *)
  Definition invalidate (v : vm) : vm :=
    if counter v =? 0 then v
    else VM (hier v) (map (fun e => Entry None (e_class e) (e_method e) (e_mclass e)) (cache v)) 0 (fun _ => None).
  (** Changing a method dictionary or a superclass. *)
  Definition store (w : world) (c s : Z) (m : option method) : world :=
    World (super w) (fun c' s' => if (c' =? c) && (s' =? s) then m else dict w c' s').
  Definition set_super (w : world) (c : Z) (p : option Z) : world :=
    World (fun c' => if c' =? c then p else super w c') (dict w).
  Definition with_hier (v : vm) (w : world) : vm := VM w (cache v) (counter v) (inline v).

  (** The steps that touch the caches. *)
  Inductive op : Type :=
  | Send (sel cls : Z) (ok : bool)          (* SEND_MESSAGE *)
  | Special (k : special) (cls : Z) (ok : bool)
  | Perform (sel cls : Z) (ok : bool)       (* perform: with a selector of the right number of arguments *)
  | SendMethod (m : method) (ok : bool)     (* _gst_send_method, libgst/interp-bc.inl:314-400 *)
  | Store (c s : Z) (m : option method)     (* the assignment within MethodDictionary>>at:put: or removeKey: *)
  | Flush                                   (* Behavior flushCache, sent at the end of those *)
  | Superclass (c : Z) (p : option Z)       (* Behavior>>superclass:, kernel/Behavior.st:516-524 *)
  | Install (c s : Z) (m : method)          (* _gst_install_method before the kernel is loaded, libgst/comp.c:2531-2551 *)
  | Doit (m : method) (ok : bool)           (* _gst_execute_statements, libgst/comp.c:571-588 *)
  | DoitConstant.                           (* the same for a statement that is a constant, libgst/comp.c:519-548 *)

  Definition ev (o : outcome (vm * (event * Z))) : outcome (vm * option event) := olet (v, (e, _)) := o in Ok (v, Some e).
  Definition reset_counter (v : vm) : vm := VM (hier v) (cache v) 0 (inline v).
  Definition step (fuel : nat) (v : vm) (o : op) : outcome (vm * option event) :=
    match o with
    | Send s c ok => ev (send fuel v s c ok)
    | Special k c ok => olet (v, e) := send_special fuel v k c ok in Ok (v, Some e)
    (* the send of perform: is counted; check_send_correctness (libgst/interp.c:992-1018) then SEND_MESSAGE *)
    | Perform s c ok => olet (v, _) := cached_find fuel (count v) s c in ev (send fuel v s c ok)
    | SendMethod m ok => Ok (count v, Some (run_method m ok))
    | Store c s m => Ok (with_hier v (store (hier v) c s m), None)
    | Flush => Ok (invalidate (count v), None)
    | Superclass c p => Ok (with_hier v (set_super (hier v) c p), None)
    | Install c s m => Ok (invalidate (with_hier v (store (hier v) c s (Some m))), None)
    | Doit m ok => Ok (count (reset_counter v), Some (run_method m ok))
    | DoitConstant => Ok (reset_counter v, None)
    end.
  Fixpoint run (fuel : nat) (v : vm) (h : list op) : outcome (vm * list (option event)) :=
    match h with
    | [] => Ok (v, [])
    | o :: h => olet (v, e) := step fuel v o in olet (v, es) := run fuel v h in Ok (v, e :: es)
    end.
  (** At start-up the cache is a static array of zeros. *)
  Definition vm0 (w : world) : vm := VM w (repeat empty_entry (Z.to_nat METHOD_CACHE_SIZE)) 0 (fun _ => None).
End Model.
