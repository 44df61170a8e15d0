(** Bytecodes: how they are emitted (libgst/byte.c), decoded (libgst/byte.def,
    libgst/vm.def) and optimised (libgst/opt.c).  A bytecode is a pair of an
    opcode and an operand byte (BYTECODE_SIZE, libgst/byte.h:277), so code is a
    list of pairs. *)
From Coq Require Import ZArith List Bool.
From Verif Require Import Base BcTables.
Import ListNotations.
Local Open Scope Z_scope.

(** * Emission *)

(** EXT_BYTE and the opcodes that the optimiser looks at;
    libgst/byte.h:96-120 *)
Definition ext_byte : Z := 55.
Definition push_temporary_variable : Z := 32.
Definition push_outer_temp : Z := 33.
Definition push_receiver_variable : Z := 35.
Definition store_temporary_variable : Z := 36.
Definition jump_back : Z := 40.
Definition jump : Z := 41.
Definition pop_jump_true : Z := 42.
Definition pop_jump_false : Z := 43.
Definition push_integer : Z := 44.
Definition push_special : Z := 45.
Definition push_lit_constant : Z := 46.
Definition pop_stack_top : Z := 48.
Definition return_context_stack_top : Z := 51.
Definition line_number_bytecode : Z := 54.
Definition push_self : Z := 56.

(** the loop that counts extension bytes; libgst/byte.c:98-99.  An int takes at
    most three turns, eight are allowed *)
Fixpoint num_ext (fuel : nat) (n : Z) : nat :=
  match fuel with
  | O => O
  | S f => if n >? 255 then S (num_ext f (Z.shiftr n 8)) else O
  end.

(** compile_byte; libgst/byte.c:91-118.  The buffer always has room *)
Definition compile_byte (byte arg : Z) : list (Z * Z) :=
  map (fun k => (ext_byte, Z.land (Z.shiftr arg (Z.of_nat k * 8)) 255))
      (rev (seq 1 (num_ext 8 arg)))
  ++ [(byte, Z.land arg 255)].

(** * Decoding by MATCH_BYTECODES *)

(** a decoded operation and its operands; libgst/byte.def:71-98 *)
Definition op := (opname * list Z)%type.

(** the operands as computed from arg and arg_lsb; libgst/byte.def:100-2163 *)
Definition aval (arg lsb : Z) (e : aexp) : Z :=
  match e with
  | F => Z.lor arg lsb
  | H => Z.shiftr arg 8
  | L => lsb
  | N => - Z.lor arg lsb
  | K n => n
  end.

(** the dispatches of one bytecode; libgst/byte.def:100-2163 *)
Definition dispatch (arg b lsb : Z) : list op :=
  map (fun t => (fst t, map (aval arg lsb) (snd t)))
      (nth (Z.to_nat b) byte_table []).

(** MATCH_BYTECODES over a list of bytecodes, including the extension bytecode
    55; libgst/byte.def:100-2163 (55 is at 433-437) *)
Fixpoint decode (arg : Z) (code : list (Z * Z)) : list op :=
  match code with
  | [] => []
  | (b, lsb) :: rest =>
    if b =? ext_byte then decode (Z.shiftl (Z.lor arg lsb) 8) rest
    else dispatch arg b lsb ++ decode 0 rest
  end.

(** * Decoding by the interpreter *)

(** an operation of the interpreter; libgst/vm.def:211-898 *)
Definition vop := (vmop * list Z)%type.

(** its operands; libgst/vm.def:924-2445 *)
Definition vval (arg : Z) (e : vexp) : Z :=
  match e with
  | VArg => arg
  | VHi => Z.shiftr arg 8
  | VLo => Z.land arg 255
  | VK n => n
  end.

(** the interpreter along straight-line code: each bytecode takes its operand
    byte (libgst/vm.def:206-214), and EXT_BYTE prepends its operand to
    that of the next bytecode (libgst/vm.def:219-223, libgst/vm.def:1200-1202) *)
Fixpoint vm_run (carry : option Z) (code : list (Z * Z)) : list vop :=
  match code with
  | [] => []
  | (b, x) :: rest =>
    let arg := match carry with
               | None => x
               | Some a => Z.lor (Z.shiftl a 8) x
               end in
    if b =? ext_byte then vm_run (Some arg) rest
    else map (fun t => (fst t, map (vval arg) (snd t)))
             (nth (Z.to_nat b) vm_table [])
         ++ vm_run None rest
  end.

(** * Superoperators *)

(** search_superop_fixed_arg_1; libgst/opt.c:688-714 *)
Definition search_superop_fixed_arg_1 (bc1 arg bc2 : Z) : option Z :=
  let asso b := nth (Z.to_nat b) asso_values_1 0 in
  let key := asso bc1 + asso bc2 + asso arg in
  if key >? max_hash_1 then None
  else
    let '(x1, x2, x3, superop) := nth (Z.to_nat key) keylist_1 (0, 0, 0, -1) in
    if (bc1 =? x1) && (bc2 =? x2) && (arg =? x3)
    then if superop =? -1 then None else Some superop
    else None.

(** search_superop_fixed_arg_2; libgst/opt.c:717-743 *)
Definition search_superop_fixed_arg_2 (bc1 bc2 arg : Z) : option Z :=
  let asso b := nth (Z.to_nat b) asso_values_2 0 in
  let key := asso bc1 + asso bc2 + asso arg in
  if key >? max_hash_2 then None
  else
    let '(x1, x2, x3, superop) := nth (Z.to_nat key) keylist_2 (0, 0, 0, -1) in
    if (bc1 =? x1) && (bc2 =? x2) && (arg =? x3)
    then if superop =? -1 then None else Some superop
    else None.

(** the inner loop of optimize_superoperators, libgst/opt.c:887-937: opt[-2] and
    opt[-1] are last, the bytecodes before them are before, the nearest first *)
Fixpoint combine_last (before : list (Z * Z)) (last : Z * Z) : list (Z * Z) :=
  match before with
  | [] => [last]
  | (b1, a1) :: before' =>
    match search_superop_fixed_arg_2 b1 (fst last) (snd last) with
    | Some n => combine_last before' (n, a1)
    | None =>
      if match before' with
         | [] => true
         | (b0, _) :: _ => negb (b0 =? ext_byte)
         end
      then
        match search_superop_fixed_arg_1 b1 a1 (fst last) with
        | Some n => combine_last before' (n, snd last)
        | None => last :: before
        end
      else last :: before
    end
  end.

(** optimize_superoperators; libgst/opt.c:863-942 *)
Definition optimize_superoperators (code : list (Z * Z)) : list (Z * Z) :=
  rev (fold_left combine_last code []).

(** * Peephole optimisation *)

(** the pushes of libgst/opt.c:760-812 *)
Definition is_push (b : Z) : bool :=
  (b =? push_temporary_variable) || (b =? push_receiver_variable)
  || (b =? push_outer_temp) || (b =? push_integer) || (b =? push_self)
  || (b =? push_special) || (b =? push_lit_constant).

(** the bytecode before these, newest first, is not EXT_BYTE;
    libgst/opt.c:765-766 and 778-779 *)
Definition not_extended (out : list (Z * Z)) : bool :=
  match out with
  | [] => true
  | (b, _) :: _ => negb (b =? ext_byte)
  end.

(** store/pop/push and store/pop/line/push, libgst/opt.c:764-792: what the
    bytecodes written so far (newest first) become if the push is left out *)
Definition store_pop_push (prev : Z) (out : list (Z * Z)) (b x : Z)
    : option (list (Z * Z)) :=
  if (b =? push_temporary_variable) || (b =? push_receiver_variable) then
    match out with
    | (p, _) :: (st, y) :: out' =>
      if not_extended out'
         && (st =? b + (store_temporary_variable - push_temporary_variable))
         && (y =? x) && (p =? pop_stack_top) && negb (prev =? ext_byte)
      then Some ((st, y) :: out')
      else
        match out with
        | (ln, z) :: (p, _) :: (st, y) :: out' =>
          if not_extended out'
             && (st =? b + (store_temporary_variable - push_temporary_variable))
             && (y =? x) && (p =? pop_stack_top)
             && (ln =? line_number_bytecode) && negb (prev =? ext_byte)
          then Some ((ln, z) :: (st, y) :: out')
          else None
        | _ => None
        end
    | _ => None
    end
  else None.

(** the pop of pop/push/return, libgst/opt.c:810-814 *)
Definition drop_pop (out src' : list (Z * Z)) : list (Z * Z) :=
  match out, src' with
  | (p, _) :: out', (r, _) :: _ =>
    if (r =? return_context_stack_top) && (p =? pop_stack_top) then out'
    else out
  | _, _ => out
  end.

(** pop/line/push, libgst/opt.c:816-829 *)
Definition swap_line (out : list (Z * Z)) : list (Z * Z) :=
  match out with
  | (ln, z) :: (p, _) :: out' =>
    if (p =? pop_stack_top) && (ln =? line_number_bytecode)
    then (pop_stack_top, 0) :: (line_number_bytecode, z) :: out'
    else out
  | _ => out
  end.

(** the loop of optimize_basic_block; libgst/opt.c:759-848.  out is what has been
    written, newest first; prev is bp[-2], src is what bp points to *)
Fixpoint peephole (prev : Z) (out src : list (Z * Z)) : outcome (list (Z * Z)) :=
  match src with
  | [] => Ok (rev out)
  | (b, x) :: src' =>
    if is_push b then
      match store_pop_push prev out b x with
      | Some out' => peephole b out' src'
      | None =>
        match src' with
        | (p, y) :: src'' =>
          if p =? pop_stack_top then peephole p out src''
          else peephole b ((b, x) :: swap_line (drop_pop out src')) src'
        | [] => peephole b ((b, x) :: swap_line (drop_pop out src')) src'
        end
      end
    else if (b =? jump) || (b =? jump_back) || (b =? pop_jump_true)
            || (b =? pop_jump_false) then Abort
    else peephole b ((b, x) :: out) src'
  end.

(** optimize_basic_block; libgst/opt.c:746-855.  bp[-2] is not read for the first
    bytecode *)
Definition optimize_basic_block (code : list (Z * Z))
    : outcome (list (Z * Z)) :=
  olet code' := peephole (-1) [] code in
  Ok (optimize_superoperators code').

(** * Jumps *)

(** a basic block after optimize_basic_block: its bytecodes, and the kind and the
    destination of the jump at its end; libgst/opt.c:96-118 *)
Record block := Block {
  body : list (Z * Z);
  jkind : option Z;
  dest : nat
}.

(** opt_length; libgst/opt.c:110-111 *)
Definition opt_length (b : block) : Z := 2 * Z.of_nat (length (body b)).

(** the superoperator for the last bytecode and the jump;
    libgst/opt.c:620-640 *)
Definition fuse_jump (b : block) : block :=
  match jkind b, rev (body b) with
  | Some kind, (bc, x) :: before =>
    if not_extended before then
      match search_superop_fixed_arg_1 bc x kind with
      | Some test => Block (rev before) (Some test) (dest b)
      | None => b
      end
    else b
  | _, _ => b
  end.

(** compute_jump_length; libgst/opt.c:413-430 *)
Definition compute_jump_length (ofs : Z) : Z :=
  if (ofs >? -254) && (ofs <? 258) then 2
  else if (ofs >? -65532) && (ofs <? 65540) then 4
  else if (ofs >? -16777210) && (ofs <? 16777222) then 6
  else 8.

(** assignment to the final_byte of a block; libgst/opt.c:650-654 *)
Fixpoint set_nth (k : nat) (x : Z) (l : list Z) : list Z :=
  match l, k with
  | [], _ => []
  | _ :: l', O => x :: l'
  | y :: l', S k' => y :: set_nth k' x l'
  end.

(** the length of the jump of block b, which is block k, for the positions fb;
    libgst/opt.c:655-660 and 674-676 *)
Definition jump_length (fb : list Z) (k : nat) (b : block) : Z :=
  match jkind b with
  | Some _ => compute_jump_length (nth (dest b) fb 0
                                   - (nth k fb 0 + opt_length b))
  | None => 0
  end.

(** the first values of final_byte; libgst/opt.c:613 and 638-639 *)
Fixpoint first_bytes (i : Z) (bs : list block) : list Z :=
  match bs with
  | [] => []
  | b :: bs' => i :: first_bytes (i + opt_length b) bs'
  end.

(** one turn of the loop on sizes; libgst/opt.c:645-662 *)
Fixpoint size_pass (k : nat) (i : Z) (changed : bool) (fb : list Z)
    (bs : list block) : list Z * bool :=
  match bs with
  | [] => (fb, changed)
  | b :: bs' =>
    let changed' := changed || negb (nth k fb 0 =? i) in
    let fb' := if nth k fb 0 =? i then fb else set_nth k i fb in
    size_pass (S k) (i + opt_length b + jump_length fb' k b) changed' fb' bs'
  end.

(** the loop on sizes; libgst/opt.c:643-664 *)
Fixpoint size_loop (fuel : nat) (fb : list Z) (bs : list block)
    : outcome (list Z) :=
  match fuel with
  | O => OutOfFuel
  | S f =>
    match size_pass 0 0 false fb bs with
    | (fb', true) => size_loop f fb' bs
    | (fb', false) => Ok fb'
    end
  end.

(** the bytes of a block in the new method; libgst/opt.c:670-683 *)
Definition emit_block (fb : list Z) (k : nat) (b : block) : list (Z * Z) :=
  body b ++
  match jkind b with
  | Some kind =>
    compile_byte kind
      (Z.abs (nth (dest b) fb 0
              - (nth k fb 0 + opt_length b + jump_length fb k b)))
  | None => []
  end.

(** putting the method together; libgst/opt.c:666-684 *)
Fixpoint emit (fb : list Z) (k : nat) (bs : list block) : list (list (Z * Z)) :=
  match bs with
  | [] => []
  | b :: bs' => emit_block fb k b :: emit fb (S k) bs'
  end.

(** the last steps of _gst_optimize_bytecodes; libgst/opt.c:642-689.  The code of
    the method is given block by block *)
Definition assemble (fuel : nat) (bs : list block)
    : outcome (list (list (Z * Z))) :=
  olet fb := size_loop fuel (first_bytes 0 bs) bs in
  Ok (emit fb 0 bs).
