(** What bytecodes mean, independently of the encoding and of the optimiser. *)
From Coq Require Import ZArith List Bool.
From Verif Require Import Base BcTables.
Import ListNotations.
Local Open Scope Z_scope.

(** The bytecodes that the compiler emits and what each asks for: the opcodes are
    those of libgst/byte.h:59-120, the packing of two operands in one is that of
    _gst_compile_send (libgst/comp.c) and PUSH_OUTER_TEMP, the selectors of the
    special sends are numbered from the first of their group. *)
Definition meaning (b n : Z) : option (opname * list Z) :=
  if (0 <=? b) && (b <=? 15) then Some (SEND_ARITH, [b])
  else if (16 <=? b) && (b <=? 26) then Some (SEND_SPECIAL, [b - 16])
  else
    match b with
    | 28 => Some (SEND, [n / 256; 0; n mod 256])
    | 29 => Some (SEND, [n / 256; 1; n mod 256])
    | 30 => Some (SEND_IMMEDIATE, [n; 0])
    | 31 => Some (SEND_IMMEDIATE, [n; 1])
    | 32 => Some (PUSH_TEMPORARY_VARIABLE, [n])
    | 33 => Some (PUSH_OUTER_TEMP, [n / 256; n mod 256])
    | 34 => Some (PUSH_LIT_VARIABLE, [n])
    | 35 => Some (PUSH_RECEIVER_VARIABLE, [n])
    | 36 => Some (STORE_TEMPORARY_VARIABLE, [n])
    | 37 => Some (STORE_OUTER_TEMP, [n / 256; n mod 256])
    | 38 => Some (STORE_LIT_VARIABLE, [n])
    | 39 => Some (STORE_RECEIVER_VARIABLE, [n])
    | 40 => Some (JUMP, [- n])
    | 41 => Some (JUMP, [n])
    | 42 => Some (POP_JUMP_TRUE, [n])
    | 43 => Some (POP_JUMP_FALSE, [n])
    | 44 => Some (PUSH_INTEGER, [n])
    | 45 => Some (PUSH_SPECIAL, [n])
    | 46 => Some (PUSH_LIT_CONSTANT, [n])
    | 47 => Some (POP_INTO_NEW_STACKTOP, [n])
    | 48 => Some (POP_STACK_TOP, [])
    | 49 => Some (MAKE_DIRTY_BLOCK, [])
    | 50 => Some (RETURN_METHOD_STACK_TOP, [])
    | 51 => Some (RETURN_CONTEXT_STACK_TOP, [])
    | 52 => Some (DUP_STACK_TOP, [])
    | 53 => Some (EXIT_INTERPRETER, [])
    | 54 => Some (LINE_NUMBER_BYTECODE, [n])
    | 56 => Some (PUSH_SELF, [])
    | _ => None
    end.

(** The operation that each operation of the interpreter stands for.  The
    interpreter does nothing for a line number, and takes the opcode of an invalid
    bytecode from memory: the operands are left out of both sides. *)
Definition translate (o : vmop * list Z) : opname * list Z :=
  match o with
  | (V_PLUS_SPECIAL, _) => (SEND_ARITH, [0])
  | (V_MINUS_SPECIAL, _) => (SEND_ARITH, [1])
  | (V_LESS_THAN_SPECIAL, _) => (SEND_ARITH, [2])
  | (V_GREATER_THAN_SPECIAL, _) => (SEND_ARITH, [3])
  | (V_LESS_EQUAL_SPECIAL, _) => (SEND_ARITH, [4])
  | (V_GREATER_EQUAL_SPECIAL, _) => (SEND_ARITH, [5])
  | (V_EQUAL_SPECIAL, _) => (SEND_ARITH, [6])
  | (V_NOT_EQUAL_SPECIAL, _) => (SEND_ARITH, [7])
  | (V_TIMES_SPECIAL, _) => (SEND_ARITH, [8])
  | (V_DIVIDE_SPECIAL, _) => (SEND_ARITH, [9])
  | (V_REMAINDER_SPECIAL, _) => (SEND_ARITH, [10])
  | (V_BIT_XOR_SPECIAL, _) => (SEND_ARITH, [11])
  | (V_BIT_SHIFT_SPECIAL, _) => (SEND_ARITH, [12])
  | (V_INTEGER_DIVIDE_SPECIAL, _) => (SEND_ARITH, [13])
  | (V_BIT_AND_SPECIAL, _) => (SEND_ARITH, [14])
  | (V_BIT_OR_SPECIAL, _) => (SEND_ARITH, [15])
  | (V_AT_SPECIAL, _) => (SEND_SPECIAL, [0])
  | (V_AT_PUT_SPECIAL, _) => (SEND_SPECIAL, [1])
  | (V_SIZE_SPECIAL, _) => (SEND_SPECIAL, [2])
  | (V_CLASS_SPECIAL, _) => (SEND_SPECIAL, [3])
  | (V_IS_NIL_SPECIAL, _) => (SEND_SPECIAL, [4])
  | (V_NOT_NIL_SPECIAL, _) => (SEND_SPECIAL, [5])
  | (V_VALUE_SPECIAL, _) => (SEND_SPECIAL, [6])
  | (V_VALUE_COLON_SPECIAL, _) => (SEND_SPECIAL, [7])
  | (V_SAME_OBJECT_SPECIAL, _) => (SEND_SPECIAL, [8])
  | (V_JAVA_AS_INT_SPECIAL, _) => (SEND_SPECIAL, [9])
  | (V_JAVA_AS_LONG_SPECIAL, _) => (SEND_SPECIAL, [10])
  | (V_INVALID, _) => (INVALID, [])
  | (V_SEND, [n; m]) => (SEND, [n; 0; m])
  | (V_SEND_SUPER, [n; m]) => (SEND, [n; 1; m])
  | (V_SEND_IMMEDIATE, [n]) => (SEND_IMMEDIATE, [n; 0])
  | (V_SEND_SUPER_IMMEDIATE, [n]) => (SEND_IMMEDIATE, [n; 1])
  | (V_PUSH_TEMPORARY_VARIABLE, l) => (PUSH_TEMPORARY_VARIABLE, l)
  | (V_PUSH_OUTER_TEMP, l) => (PUSH_OUTER_TEMP, l)
  | (V_PUSH_LIT_VARIABLE, l) => (PUSH_LIT_VARIABLE, l)
  | (V_PUSH_RECEIVER_VARIABLE, l) => (PUSH_RECEIVER_VARIABLE, l)
  | (V_STORE_TEMPORARY_VARIABLE, l) => (STORE_TEMPORARY_VARIABLE, l)
  | (V_STORE_OUTER_TEMP, l) => (STORE_OUTER_TEMP, l)
  | (V_STORE_LIT_VARIABLE, l) => (STORE_LIT_VARIABLE, l)
  | (V_STORE_RECEIVER_VARIABLE, l) => (STORE_RECEIVER_VARIABLE, l)
  | (V_JUMP_BACK, l) => (JUMP, map Z.opp l)
  | (V_JUMP, l) => (JUMP, l)
  | (V_POP_JUMP_TRUE, l) => (POP_JUMP_TRUE, l)
  | (V_POP_JUMP_FALSE, l) => (POP_JUMP_FALSE, l)
  | (V_PUSH_INTEGER, l) => (PUSH_INTEGER, l)
  | (V_PUSH_SPECIAL, l) => (PUSH_SPECIAL, l)
  | (V_PUSH_LIT_CONSTANT, l) => (PUSH_LIT_CONSTANT, l)
  | (V_POP_INTO_NEW_STACKTOP, l) => (POP_INTO_NEW_STACKTOP, l)
  | (V_POP_STACK_TOP, l) => (POP_STACK_TOP, l)
  | (V_MAKE_DIRTY_BLOCK, l) => (MAKE_DIRTY_BLOCK, l)
  | (V_RETURN_METHOD_STACK_TOP, l) => (RETURN_METHOD_STACK_TOP, l)
  | (V_RETURN_CONTEXT_STACK_TOP, l) => (RETURN_CONTEXT_STACK_TOP, l)
  | (V_DUP_STACK_TOP, l) => (DUP_STACK_TOP, l)
  | (V_EXIT_INTERPRETER, l) => (EXIT_INTERPRETER, l)
  | (V_LINE_NUMBER_BYTECODE, _) => (LINE_NUMBER_BYTECODE, [])
  | (V_PUSH_SELF, l) => (PUSH_SELF, l)
  | _ => (INVALID, [])
  end.

(** a decoded operation without the operands that the interpreter ignores *)
Definition without_line (o : opname * list Z) : opname * list Z :=
  match o with
  | (LINE_NUMBER_BYTECODE, _) => (LINE_NUMBER_BYTECODE, [])
  | (INVALID, _) => (INVALID, [])
  | _ => o
  end.

(** The operations of the interpreter that may leave the bytecode they are in:
    they send a message, return, jump or stop (libgst/vm.def:225-898). *)
Definition may_transfer (o : vmop) : bool :=
  match o with
  | V_IS_NIL_SPECIAL | V_NOT_NIL_SPECIAL | V_SAME_OBJECT_SPECIAL
  | V_PUSH_TEMPORARY_VARIABLE | V_PUSH_OUTER_TEMP | V_PUSH_RECEIVER_VARIABLE
  | V_STORE_TEMPORARY_VARIABLE | V_STORE_OUTER_TEMP | V_STORE_RECEIVER_VARIABLE
  | V_PUSH_INTEGER | V_PUSH_SPECIAL | V_PUSH_LIT_CONSTANT
  | V_POP_INTO_NEW_STACKTOP | V_POP_STACK_TOP | V_MAKE_DIRTY_BLOCK
  | V_DUP_STACK_TOP | V_LINE_NUMBER_BYTECODE | V_PUSH_SELF => false
  | _ => true
  end.

(** ** A stack machine for the operations

    The temporaries and the instance variables can be read and written; the other
    pushes read something that depends on the operation and on the rest of the
    world; every other operation does anything at all with the whole state. *)
Section Machine.
  Context {val world : Type}.

  Record state := State {
    stack : list val;
    temps : Z -> val;
    ivars : Z -> val;
    line : Z;
    rest : world
  }.

  (** going on, having returned a value, or an operation on an empty stack *)
  Inductive result :=
  | Go (s : state)
  | Returned (v : val) (s : state)
  | Stuck.

  Definition set (m : Z -> val) (n : Z) (v : val) : Z -> val :=
    fun k => if k =? n then v else m k.

  Context (load : opname -> list Z -> world -> val).
  Context (other : opname -> list Z -> state -> result).

  Definition push (v : val) (s : state) : result :=
    Go (State (v :: stack s) (temps s) (ivars s) (line s) (rest s)).

  Definition step (o : opname * list Z) (s : state) : result :=
    match o with
    | (PUSH_TEMPORARY_VARIABLE, [n]) => push (temps s n) s
    | (PUSH_RECEIVER_VARIABLE, [n]) => push (ivars s n) s
    | (STORE_TEMPORARY_VARIABLE, [n]) =>
      match stack s with
      | v :: _ => Go (State (stack s) (set (temps s) n v) (ivars s) (line s) (rest s))
      | [] => Stuck
      end
    | (STORE_RECEIVER_VARIABLE, [n]) =>
      match stack s with
      | v :: _ => Go (State (stack s) (temps s) (set (ivars s) n v) (line s) (rest s))
      | [] => Stuck
      end
    | (POP_STACK_TOP, _) =>
      match stack s with
      | _ :: st => Go (State st (temps s) (ivars s) (line s) (rest s))
      | [] => Stuck
      end
    | (RETURN_CONTEXT_STACK_TOP, _) =>
      match stack s with
      | v :: _ => Returned v (State [] (temps s) (ivars s) (line s) (rest s))
      | [] => Stuck
      end
    | (LINE_NUMBER_BYTECODE, [n]) =>
      Go (State (stack s) (temps s) (ivars s) n (rest s))
    | (PUSH_OUTER_TEMP, l) => push (load PUSH_OUTER_TEMP l (rest s)) s
    | (PUSH_INTEGER, l) => push (load PUSH_INTEGER l (rest s)) s
    | (PUSH_SELF, l) => push (load PUSH_SELF l (rest s)) s
    | (PUSH_SPECIAL, l) => push (load PUSH_SPECIAL l (rest s)) s
    | (PUSH_LIT_CONSTANT, l) => push (load PUSH_LIT_CONSTANT l (rest s)) s
    | (o, l) => other o l s
    end.

  Fixpoint run (l : list (opname * list Z)) (s : state) : result :=
    match l with
    | [] => Go s
    | o :: l' =>
      match step o s with
      | Go s' => run l' s'
      | r => r
      end
    end.
End Machine.
Arguments state : clear implicits.
Arguments result : clear implicits.

(** the bytecodes whose operand is not used; the compiler gives them 0 *)
Definition no_operand (b : Z) : bool :=
  (b <=? 26) || ((48 <=? b) && (b <=? 53)) || (b =? 56).

(** an instruction that the compiler may ask for: an opcode of its set with an
    operand that fits an int, 0 if it is not used *)
Definition instruction (i : Z * Z) : Prop :=
  meaning (fst i) 0 <> None /\ 0 <= snd i < 2 ^ 31
  /\ (no_operand (fst i) = true -> snd i = 0).

(** jumps are not part of the basic blocks *)
Definition is_jump (b : Z) : bool := (40 <=? b) && (b <=? 43).

(** an extended push whose value is popped at once *)
Fixpoint extended_push_pop (l : list (Z * Z)) : bool :=
  match l with
  | (b, n) :: ((p, _) :: _) as l' =>
    (existsb (Z.eqb b) [32; 33; 35; 44; 45; 46] && (255 <? n) && (p =? 48))
    || extended_push_pop l'
  | _ => false
  end.

(** ** Jumps

    where a piece of code starts when the pieces are put one after the other, in
    bytes *)
Definition start_of {A} (pieces : list (list A)) (k : nat) : Z :=
  2 * Z.of_nat (length (concat (firstn k pieces))).

(** the displacement of a jump operation, from its end *)
Definition displacement (o : opname * list Z) : option Z :=
  match o with
  | (JUMP, [n]) | (POP_JUMP_TRUE, [n]) | (POP_JUMP_FALSE, [n]) => Some n
  | _ => None
  end.

(** the last operation of a piece of code jumps to the start of piece d *)
Definition lands {A} (pieces : list (list A)) (ops : list (opname * list Z))
    (k d : nat) : Prop :=
  exists o n, displacement o = Some n
    /\ List.last ops (INVALID, []) = o
    /\ start_of pieces (S k) + n = start_of pieces d.
