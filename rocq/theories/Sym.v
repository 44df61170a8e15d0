(** The symbol table: interning, rebuilding, and the selectors' argument
    counts.  libgst/sym.c, kernel/Symbol.st

    A string is the list of its bytes.  Symbol objects are numbered in order
    of creation; the number stands for the object's identity and is never
    used again, so the reuse of an object's memory is not modelled here.
    Readline completion and allocation failure are left out. *)
From Coq Require Import ZArith List Bool.
From Verif Require Import Base Hashed.
Import ListNotations.
Local Open Scope Z_scope.

(** libgst/sym.c:1473 [*str++] is a signed [char] *)
Definition schar (c : Z) : Z := if c <? 128 then c else c - 256.

(** one turn of the loop of _gst_hash_string; libgst/sym.c:1471-1476;
    [uintptr_t] has 64 bits *)
Definition hash_char (h c : Z) : Z :=
  let h := uwrap64 (h + schar c) in
  let h := uwrap64 (h + Z.shiftl h 10) in
  Z.lxor h (Z.shiftr h 6).

(** MAX_ST_INT; libgst/gstpriv.h:503 with a 64-bit word *)
Definition max_st_int : Z := 2 ^ 62 - 1.

(** _gst_hash_string; libgst/sym.c:1466-1480, also String>>hash:
    libgst/prims.def:3240-3257 *)
Definition hash_string (s : list Z) : Z :=
  Z.land (fold_left hash_char s 1497032417) max_st_int.

(** scramble; libgst/dict.inl:605-617, the 64-bit branch *)
Definition scramble (x : Z) : Z :=
  let x := Z.lxor x (Z.lor (Z.shiftr x 31) (uwrap64 (Z.shiftl x 33))) in
  let x := Z.lxor x (Z.lor (uwrap64 (Z.shiftl x 10)) (Z.shiftr x 22)) in
  let x := Z.lxor x (Z.lor (uwrap64 (Z.shiftl x 6)) (Z.shiftr x 26)) in
  let x := Z.lxor x (Z.lor (uwrap64 (Z.shiftl x 16)) (Z.shiftr x 16)) in
  Z.land x max_st_int.

(** hash_symbol, counting buckets from 0; libgst/sym.c:1372-1377,
    SYMBOL_TABLE_SIZE: libgst/sym.h:58.  The kernel computes the same bucket:
    kernel/Symbol.st:65,83,108 *)
Definition bucket (s : list Z) : nat :=
  Z.to_nat (Z.land (scramble (hash_string s)) 511).

(** strncmp (s, t, len) == 0 for two strings of length len: the comparison
    stops at a NUL; used by libgst/sym.c:1454 *)
Fixpoint strncmp_eq (s t : list Z) : bool :=
  match s, t with
  | [], [] => true
  | a :: s, b :: t =>
    if a =? b then (if a =? 0 then true else strncmp_eq s t) else false
  | _, _ => false
  end.

(** is_same_string; libgst/sym.c:1447-1458 *)
Definition is_same_string (s t : list Z) : bool :=
  if Nat.eqb (length t) (length s) then strncmp_eq s t else false.

(** the symbol table and the symbols; libgst/sym.c:1379-1445.  [alive] holds
    the symbols not yet collected, in the order of Symbol allInstances *)
Record symtab := mksym {
  chars : list (list Z);
  alive : list nat;
  table : list (list nat)
}.

(** the characters of a symbol; libgst/sym.c:1430-1445 *)
Definition chars_of (t : symtab) (i : nat) : list Z := nth i (chars t) [].

(** the chain of a bucket; libgst/sym.c:1406 *)
Definition chain (t : symtab) (b : nat) : list nat := nth b (table t) [].

(** alloc_symbol_oop; libgst/sym.c:1430-1445 *)
Definition alloc_symbol (s : list Z) (t : symtab) : nat * symtab :=
  let i := length (chars t) in
  (i, mksym (chars t ++ [s]) (alive t ++ [i]) (table t)).

(** alloc_symlink; libgst/sym.c:1379-1395, and kernel/Symbol.st:66-67 *)
Definition link (i b : nat) (t : symtab) : symtab :=
  mksym (chars t) (alive t) (replace b (i :: chain t b) (table t)).

(** intern_counted_string; libgst/sym.c:1397-1428, called by Symbol class>>
    intern: (kernel/Symbol.st:203-209) and String>>asSymbol
    (kernel/String.st:127-133) *)
Definition intern (s : list Z) (t : symtab) : nat * symtab :=
  match List.find (fun i => is_same_string s (chars_of t i)) (chain t (bucket s)) with
  | Some i => (i, t)
  | None => let '(i, t) := alloc_symbol s t in (i, link i (bucket s) t)
  end.

(** the table of _gst_alloc_symbol_table; libgst/dict.c:775-800 *)
Definition empty_table : list (list nat) := repeat [] 512.

(** _gst_init_symbols_pass1; libgst/sym.c:1557-1585 *)
Definition init_pass1 (names : list (list Z)) : symtab :=
  mksym names (seq 0 (length names)) empty_table.

(** _gst_init_symbols_pass2; libgst/sym.c:1587-1603 *)
Definition init_pass2 (t : symtab) : symtab :=
  fold_left (fun t i => link i (bucket (chars_of t i)) t) (alive t) t.

(** the symbols the virtual machine starts with; libgst/sym.c:1557-1603 *)
Definition init (names : list (list Z)) : symtab := init_pass2 (init_pass1 names).

(** Symbol class>>rebuildTable; kernel/Symbol.st:44-71.  [keep] tells which
    symbols survive the collection *)
Definition rebuild (keep : nat -> bool) (t : symtab) : symtab :=
  let old := filter keep (alive t) in
  fold_left (fun t i => link i (bucket (chars_of t i)) t) old
    (mksym (chars t) old empty_table).

(** [each with: aString do: [:a :b | a = b ifFalse: [ok := false]]];
    kernel/Symbol.st:91,113 *)
Definition same_chars (s t : list Z) : bool :=
  forallb (fun p => fst p =? snd p) (combine s t).

(** the test made on each symbol of a chain; kernel/Symbol.st:87-94,109-114 *)
Definition sym_match (s t : list Z) : bool :=
  if Nat.eqb (length t) (length s) then same_chars t s else false.

(** Symbol class>>hasInterned:ifTrue:, answering the symbol given to the block;
    kernel/Symbol.st:73-96.  The first link of an empty bucket is nil, which
    does not understand #do: *)
Definition hasInterned (s : list Z) (t : symtab) : outcome (option nat) :=
  match chain t (bucket s) with
  | [] => Err
  | c => Ok (List.find (fun i => sym_match s (chars_of t i)) c)
  end.

(** Symbol class>>isSymbolString:; kernel/Symbol.st:98-117 *)
Definition isSymbolString (s : list Z) (t : symtab) : outcome bool :=
  match chain t (bucket s) with
  | [] => Err
  | c => Ok (existsb (fun i => sym_match s (chars_of t i)) c)
  end.

(** Histories: strings are made into symbols, references to symbols are
    dropped, and the table is rebuilt; [keep] are the unheld symbols that
    happen to survive (libgst/oop.c may keep an object longer than needed). *)
Inductive symop :=
  | Intern (s : list Z)
  | Drop (n : nat)
  | Rebuild (keep : nat -> bool).

(** the state of a history: the table, and the references held, each with the
    string it was made from; libgst/sym.c:1397-1428, kernel/Symbol.st:44-71 *)
Definition sstate : Type := symtab * list (list Z * nat).

(** forgets the n-th reference held; no code *)
Fixpoint drop_nth {A} (n : nat) (l : list A) : list A :=
  match l, n with
  | [], _ => []
  | _ :: l, O => l
  | x :: l, S n => x :: drop_nth n l
  end.

(** whether a symbol is held; objects held by the program survive a
    collection, libgst/oop.c *)
Definition is_held (h : list (list Z * nat)) (i : nat) : bool :=
  existsb (fun p => Nat.eqb (snd p) i) h.

(** one step of a history; libgst/sym.c:1397-1428, kernel/Symbol.st:44-71 *)
Definition symstep (st : sstate) (o : symop) : sstate :=
  let '(t, h) := st in
  match o with
  | Intern s => let '(i, t) := intern s t in (t, (s, i) :: h)
  | Drop n => (t, drop_nth n h)
  | Rebuild keep => (rebuild (fun i => is_held h i || keep i) t, h)
  end.

(** a history from the start of the virtual machine; libgst/sym.c:1557-1603 *)
Definition symrun (names : list (list Z)) (os : list symop) : sstate :=
  fold_left symstep os (init names, []).

(** Character>>isLetter on a byte; kernel/Character.st:308-313, the Table of
    kernel/Character.st:69-98 is odd exactly for A-Z and a-z *)
Definition isLetter (c : Z) : bool :=
  ((65 <=? c) && (c <=? 90)) || ((97 <=? c) && (c <=? 122)).

(** _gst_selector_num_args; libgst/sym.c:1533-1553.  The first byte of an
    empty symbol lies outside it *)
Definition selector_num_args (s : list Z) : outcome Z :=
  match s with
  | [] => UB
  | c :: _ =>
    if isLetter c || (c =? 95) then
      Ok (fold_right (fun c n => if c =? 58 then n + 1 else n) 0 s)
    else Ok 1
  end.

(** Symbol>>numArgs; kernel/Symbol.st:226-234; [self at: 0] of an empty symbol
    is an error *)
Definition numArgs (s : list Z) : outcome Z :=
  match rev s with
  | [] => Err
  | c :: _ =>
    if c =? 58 then
      Ok (fold_left (fun n c => if c =? 58 then n + 1 else n) s 0)
    else if existsb (fun c => isLetter c || (c =? 95)) s then Ok 0
    else Ok 1
  end.
