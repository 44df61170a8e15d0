(** The tables of the bytecode set, transcribed from the source:
    the decoding of each bytecode by MATCH_BYTECODES (libgst/byte.def:100-2163),
    its execution by the interpreter (libgst/vm.def:924-2445), and the tables of
    superoperators (libgst/superop1.inl, libgst/superop2.inl). *)
From Coq Require Import ZArith List.
Import ListNotations.
Local Open Scope Z_scope.

(** the decoded operations; libgst/byte.def:71-98 *)
Inductive opname :=
  | SEND_ARITH
  | SEND_SPECIAL
  | SEND
  | SEND_IMMEDIATE
  | PUSH_TEMPORARY_VARIABLE
  | PUSH_OUTER_TEMP
  | PUSH_LIT_VARIABLE
  | PUSH_RECEIVER_VARIABLE
  | STORE_TEMPORARY_VARIABLE
  | STORE_OUTER_TEMP
  | STORE_LIT_VARIABLE
  | STORE_RECEIVER_VARIABLE
  | JUMP
  | POP_JUMP_TRUE
  | POP_JUMP_FALSE
  | PUSH_INTEGER
  | PUSH_SELF
  | PUSH_SPECIAL
  | PUSH_LIT_CONSTANT
  | POP_INTO_NEW_STACKTOP
  | POP_STACK_TOP
  | MAKE_DIRTY_BLOCK
  | RETURN_METHOD_STACK_TOP
  | RETURN_CONTEXT_STACK_TOP
  | DUP_STACK_TOP
  | EXIT_INTERPRETER
  | LINE_NUMBER_BYTECODE
  | INVALID.

(** the operands in libgst/byte.def: (arg | arg_lsb), (arg >> 8), arg_lsb, a
    number, and - (arg | arg_lsb) in the backward jump.  Jumps are given from the
    end of the bytecode: the IP - IP0 of libgst/byte.def:343-364 is left out *)
Inductive aexp := F | H | L | N | K (n : Z).

(** libgst/byte.def:100-2163; entry 55, EXT_BYTE, is dealt with in Bc.v *)
Definition byte_table : list (list (opname * list aexp)) := [
  (* 0 *) [(SEND_ARITH, [K 0])];
  (* 1 *) [(SEND_ARITH, [K 1])];
  (* 2 *) [(SEND_ARITH, [K 2])];
  (* 3 *) [(SEND_ARITH, [K 3])];
  (* 4 *) [(SEND_ARITH, [K 4])];
  (* 5 *) [(SEND_ARITH, [K 5])];
  (* 6 *) [(SEND_ARITH, [K 6])];
  (* 7 *) [(SEND_ARITH, [K 7])];
  (* 8 *) [(SEND_ARITH, [K 8])];
  (* 9 *) [(SEND_ARITH, [K 9])];
  (* 10 *) [(SEND_ARITH, [K 10])];
  (* 11 *) [(SEND_ARITH, [K 11])];
  (* 12 *) [(SEND_ARITH, [K 12])];
  (* 13 *) [(SEND_ARITH, [K 13])];
  (* 14 *) [(SEND_ARITH, [K 14])];
  (* 15 *) [(SEND_ARITH, [K 15])];
  (* 16 *) [(SEND_SPECIAL, [K 0])];
  (* 17 *) [(SEND_SPECIAL, [K 1])];
  (* 18 *) [(SEND_SPECIAL, [K 2])];
  (* 19 *) [(SEND_SPECIAL, [K 3])];
  (* 20 *) [(SEND_SPECIAL, [K 4])];
  (* 21 *) [(SEND_SPECIAL, [K 5])];
  (* 22 *) [(SEND_SPECIAL, [K 6])];
  (* 23 *) [(SEND_SPECIAL, [K 7])];
  (* 24 *) [(SEND_SPECIAL, [K 8])];
  (* 25 *) [(SEND_SPECIAL, [K 9])];
  (* 26 *) [(SEND_SPECIAL, [K 10])];
  (* 27 *) [(INVALID, [K 27; F])];
  (* 28 *) [(SEND, [H; K 0; L])];
  (* 29 *) [(SEND, [H; K 1; L])];
  (* 30 *) [(SEND_IMMEDIATE, [F; K 0])];
  (* 31 *) [(SEND_IMMEDIATE, [F; K 1])];
  (* 32 *) [(PUSH_TEMPORARY_VARIABLE, [F])];
  (* 33 *) [(PUSH_OUTER_TEMP, [H; L])];
  (* 34 *) [(PUSH_LIT_VARIABLE, [F])];
  (* 35 *) [(PUSH_RECEIVER_VARIABLE, [F])];
  (* 36 *) [(STORE_TEMPORARY_VARIABLE, [F])];
  (* 37 *) [(STORE_OUTER_TEMP, [H; L])];
  (* 38 *) [(STORE_LIT_VARIABLE, [F])];
  (* 39 *) [(STORE_RECEIVER_VARIABLE, [F])];
  (* 40 *) [(JUMP, [N])];
  (* 41 *) [(JUMP, [F])];
  (* 42 *) [(POP_JUMP_TRUE, [F])];
  (* 43 *) [(POP_JUMP_FALSE, [F])];
  (* 44 *) [(PUSH_INTEGER, [F])];
  (* 45 *) [(PUSH_SPECIAL, [F])];
  (* 46 *) [(PUSH_LIT_CONSTANT, [F])];
  (* 47 *) [(POP_INTO_NEW_STACKTOP, [F])];
  (* 48 *) [(POP_STACK_TOP, [])];
  (* 49 *) [(MAKE_DIRTY_BLOCK, [])];
  (* 50 *) [(RETURN_METHOD_STACK_TOP, [])];
  (* 51 *) [(RETURN_CONTEXT_STACK_TOP, [])];
  (* 52 *) [(DUP_STACK_TOP, [])];
  (* 53 *) [(EXIT_INTERPRETER, [])];
  (* 54 *) [(LINE_NUMBER_BYTECODE, [F])];
  (* 55 *) [];
  (* 56 *) [(PUSH_SELF, [])];
  (* 57 *) [(INVALID, [K 57; F])];
  (* 58 *) [(INVALID, [K 58; F])];
  (* 59 *) [(INVALID, [K 59; F])];
  (* 60 *) [(INVALID, [K 60; F])];
  (* 61 *) [(INVALID, [K 61; F])];
  (* 62 *) [(INVALID, [K 62; F])];
  (* 63 *) [(INVALID, [K 63; F])];
  (* 64 *) [(SEND, [F; K 0; K 1])];
  (* 65 *) [(SEND, [F; K 0; K 0])];
  (* 66 *) [(PUSH_SELF, []); (RETURN_CONTEXT_STACK_TOP, [])];
  (* 67 *) [(LINE_NUMBER_BYTECODE, [F]); (PUSH_SELF, [])];
  (* 68 *) [(LINE_NUMBER_BYTECODE, [F]); (POP_STACK_TOP, [])];
  (* 69 *) [(LINE_NUMBER_BYTECODE, [F]); (PUSH_TEMPORARY_VARIABLE, [K 0])];
  (* 70 *) [(PUSH_LIT_CONSTANT, [F]); (MAKE_DIRTY_BLOCK, [])];
  (* 71 *) [(SEND, [F; K 0; K 2])];
  (* 72 *) [(POP_STACK_TOP, []); (DUP_STACK_TOP, [])];
  (* 73 *) [(PUSH_TEMPORARY_VARIABLE, [K 0]); (SEND_IMMEDIATE, [F; K 0])];
  (* 74 *) [(PUSH_SELF, []); (SEND, [F; K 0; K 0])];
  (* 75 *) [(PUSH_SPECIAL, [F]); (RETURN_CONTEXT_STACK_TOP, [])];
  (* 76 *) [(PUSH_SELF, []); (SEND_IMMEDIATE, [F; K 0])];
  (* 77 *) [(PUSH_OUTER_TEMP, [F; K 1])];
  (* 78 *) [(STORE_TEMPORARY_VARIABLE, [F]); (POP_STACK_TOP, [])];
  (* 79 *) [(PUSH_SELF, []); (PUSH_TEMPORARY_VARIABLE, [F])];
  (* 80 *) [(STORE_RECEIVER_VARIABLE, [F]); (PUSH_SELF, []); (RETURN_CONTEXT_STACK_TOP, [])];
  (* 81 *) [(PUSH_INTEGER, [F]); (SEND_ARITH, [K 0])];
  (* 82 *) [(LINE_NUMBER_BYTECODE, [F]); (PUSH_LIT_VARIABLE, [K 0])];
  (* 83 *) [(PUSH_TEMPORARY_VARIABLE, [K 0]); (PUSH_TEMPORARY_VARIABLE, [F])];
  (* 84 *) [(PUSH_TEMPORARY_VARIABLE, [K 0]); (SEND, [H; K 0; L])];
  (* 85 *) [(LINE_NUMBER_BYTECODE, [F]); (PUSH_TEMPORARY_VARIABLE, [K 1])];
  (* 86 *) [(SEND_SPECIAL, [K 4]); (POP_JUMP_FALSE, [F])];
  (* 87 *) [(PUSH_INTEGER, [F]); (SEND_ARITH, [K 6])];
  (* 88 *) [(SEND, [F; K 0; K 3])];
  (* 89 *) [(PUSH_TEMPORARY_VARIABLE, [K 0]); (SEND, [F; K 0; K 1])];
  (* 90 *) [(LINE_NUMBER_BYTECODE, [F]); (PUSH_SELF, []); (SEND, [K 0; K 0; K 0])];
  (* 91 *) [(PUSH_TEMPORARY_VARIABLE, [F]); (RETURN_CONTEXT_STACK_TOP, [])];
  (* 92 *) [(PUSH_LIT_CONSTANT, [F]); (SEND_IMMEDIATE, [K 36; K 0])];
  (* 93 *) [(SEND_SPECIAL, [K 8]); (POP_JUMP_FALSE, [F])];
  (* 94 *) [(PUSH_LIT_CONSTANT, [F]); (SEND, [K 1; K 0; K 1])];
  (* 95 *) [(LINE_NUMBER_BYTECODE, [F]); (POP_STACK_TOP, []); (PUSH_SELF, [])];
  (* 96 *) [(POP_STACK_TOP, []); (DUP_STACK_TOP, []); (LINE_NUMBER_BYTECODE, [F])];
  (* 97 *) [(PUSH_TEMPORARY_VARIABLE, [K 0]); (SEND, [F; K 0; K 0])];
  (* 98 *) [(PUSH_TEMPORARY_VARIABLE, [K 1]); (SEND_IMMEDIATE, [F; K 0])];
  (* 99 *) [(PUSH_LIT_CONSTANT, [F]); (SEND_ARITH, [K 6])];
  (* 100 *) [(PUSH_INTEGER, [F]); (SEND_ARITH, [K 1])];
  (* 101 *) [(DUP_STACK_TOP, []); (POP_JUMP_FALSE, [F])];
  (* 102 *) [(POP_STACK_TOP, []); (LINE_NUMBER_BYTECODE, [F])];
  (* 103 *) [(PUSH_INTEGER, [F]); (SEND_IMMEDIATE, [K 32; K 0])];
  (* 104 *) [(PUSH_TEMPORARY_VARIABLE, [F]); (SEND_SPECIAL, [K 2])];
  (* 105 *) [(PUSH_SELF, []); (SEND, [H; K 0; L])];
  (* 106 *) [(LINE_NUMBER_BYTECODE, [F]); (PUSH_TEMPORARY_VARIABLE, [K 2])];
  (* 107 *) [(POP_STACK_TOP, []); (SEND_IMMEDIATE, [F; K 0])];
  (* 108 *) [(PUSH_TEMPORARY_VARIABLE, [F]); (PUSH_INTEGER, [K 1]); (SEND_ARITH, [K 0])];
  (* 109 *) [(LINE_NUMBER_BYTECODE, [F]); (PUSH_RECEIVER_VARIABLE, [K 0])];
  (* 110 *) [(PUSH_LIT_CONSTANT, [F]); (SEND_IMMEDIATE, [K 38; K 0])];
  (* 111 *) [(PUSH_INTEGER, [F]); (SEND_SPECIAL, [K 0])];
  (* 112 *) [(LINE_NUMBER_BYTECODE, [F]); (PUSH_RECEIVER_VARIABLE, [K 1])];
  (* 113 *) [(PUSH_TEMPORARY_VARIABLE, [K 0]); (PUSH_LIT_CONSTANT, [F])];
  (* 114 *) [(DUP_STACK_TOP, []); (POP_JUMP_TRUE, [F])];
  (* 115 *) [(PUSH_TEMPORARY_VARIABLE, [F]); (SEND_SPECIAL, [K 0])];
  (* 116 *) [(PUSH_TEMPORARY_VARIABLE, [K 2]); (SEND_IMMEDIATE, [F; K 0])];
  (* 117 *) [(PUSH_LIT_CONSTANT, [F]); (SEND_IMMEDIATE, [K 49; K 0])];
  (* 118 *) [(STORE_TEMPORARY_VARIABLE, [K 1]); (LINE_NUMBER_BYTECODE, [F]); (POP_STACK_TOP, [])];
  (* 119 *) [(PUSH_TEMPORARY_VARIABLE, [K 1]); (SEND, [F; K 0; K 1])];
  (* 120 *) [(STORE_RECEIVER_VARIABLE, [F]); (POP_STACK_TOP, [])];
  (* 121 *) [(STORE_OUTER_TEMP, [F; K 1])];
  (* 122 *) [(PUSH_INTEGER, [F]); (SEND_IMMEDIATE, [K 96; K 0])];
  (* 123 *) [(POP_STACK_TOP, []); (PUSH_TEMPORARY_VARIABLE, [F])];
  (* 124 *) [(PUSH_RECEIVER_VARIABLE, [F]); (RETURN_CONTEXT_STACK_TOP, [])];
  (* 125 *) [(LINE_NUMBER_BYTECODE, [F]); (POP_STACK_TOP, []); (PUSH_TEMPORARY_VARIABLE, [K 1])];
  (* 126 *) [(LINE_NUMBER_BYTECODE, [F]); (POP_STACK_TOP, []); (PUSH_TEMPORARY_VARIABLE, [K 0])];
  (* 127 *) [(LINE_NUMBER_BYTECODE, [F]); (PUSH_SELF, []); (PUSH_LIT_CONSTANT, [K 0])];
  (* 128 *) [(PUSH_LIT_CONSTANT, [F]); (RETURN_CONTEXT_STACK_TOP, [])];
  (* 129 *) [(PUSH_SELF, []); (SEND_SPECIAL, [K 2])];
  (* 130 *) [(SEND_SPECIAL, [K 4]); (POP_JUMP_TRUE, [F])];
  (* 131 *) [(PUSH_TEMPORARY_VARIABLE, [F]); (SEND_SPECIAL, [K 1])];
  (* 132 *) [(LINE_NUMBER_BYTECODE, [F]); (PUSH_LIT_VARIABLE, [K 1])];
  (* 133 *) [(PUSH_TEMPORARY_VARIABLE, [F]); (SEND_ARITH, [K 0])];
  (* 134 *) [(POP_STACK_TOP, []); (JUMP, [N])];
  (* 135 *) [(POP_STACK_TOP, []); (PUSH_LIT_VARIABLE, [F])];
  (* 136 *) [(PUSH_INTEGER, [K 1]); (STORE_TEMPORARY_VARIABLE, [F])];
  (* 137 *) [(PUSH_LIT_CONSTANT, [F]); (SEND, [K 2; K 0; K 1])];
  (* 138 *) [(LINE_NUMBER_BYTECODE, [F]); (PUSH_TEMPORARY_VARIABLE, [K 3])];
  (* 139 *) [(LINE_NUMBER_BYTECODE, [F]); (PUSH_OUTER_TEMP, [K 0; K 1])];
  (* 140 *) [(PUSH_RECEIVER_VARIABLE, [F]); (SEND, [K 0; K 0; K 0])];
  (* 141 *) [(PUSH_INTEGER, [F]); (SEND_ARITH, [K 3])];
  (* 142 *) [(PUSH_TEMPORARY_VARIABLE, [F]); (SEND_SPECIAL, [K 6])];
  (* 143 *) [(PUSH_TEMPORARY_VARIABLE, [F]); (SEND_ARITH, [K 1])];
  (* 144 *) [(PUSH_LIT_CONSTANT, [F]); (SEND, [K 3; K 0; K 1])];
  (* 145 *) [(PUSH_SPECIAL, [K 0]); (SEND_SPECIAL, [K 8]); (POP_JUMP_FALSE, [F])];
  (* 146 *) [(STORE_TEMPORARY_VARIABLE, [K 2]); (LINE_NUMBER_BYTECODE, [F]); (POP_STACK_TOP, [])];
  (* 147 *) [(SEND_SPECIAL, [K 8]); (POP_JUMP_TRUE, [F])];
  (* 148 *) [(PUSH_INTEGER, [F]); (SEND_ARITH, [K 8])];
  (* 149 *) [(LINE_NUMBER_BYTECODE, [F]); (PUSH_RECEIVER_VARIABLE, [K 2])];
  (* 150 *) [(PUSH_INTEGER, [F]); (SEND_ARITH, [K 2])];
  (* 151 *) [(PUSH_LIT_CONSTANT, [F]); (SEND_SPECIAL, [K 1])];
  (* 152 *) [(PUSH_OUTER_TEMP, [F; K 2])];
  (* 153 *) [(LINE_NUMBER_BYTECODE, [F]); (PUSH_SELF, []); (PUSH_TEMPORARY_VARIABLE, [K 0]); (SEND, [K 0; K 0; K 1])];
  (* 154 *) [(PUSH_SELF, []); (PUSH_TEMPORARY_VARIABLE, [K 0]); (SEND, [F; K 0; K 1])];
  (* 155 *) [(LINE_NUMBER_BYTECODE, [F]); (PUSH_SELF, []); (SEND_IMMEDIATE, [K 40; K 0])];
  (* 156 *) [(PUSH_TEMPORARY_VARIABLE, [F]); (PUSH_TEMPORARY_VARIABLE, [K 3])];
  (* 157 *) [(STORE_TEMPORARY_VARIABLE, [K 1]); (LINE_NUMBER_BYTECODE, [F])];
  (* 158 *) [(LINE_NUMBER_BYTECODE, [F]); (PUSH_TEMPORARY_VARIABLE, [K 0]); (SEND, [K 0; K 0; K 0])];
  (* 159 *) [(PUSH_INTEGER, [F]); (SEND_ARITH, [K 14])];
  (* 160 *) [(PUSH_TEMPORARY_VARIABLE, [K 2]); (SEND, [F; K 0; K 0])];
  (* 161 *) [(PUSH_TEMPORARY_VARIABLE, [K 0]); (PUSH_TEMPORARY_VARIABLE, [K 1]); (SEND, [H; K 0; L])];
  (* 162 *) [(LINE_NUMBER_BYTECODE, [F]); (PUSH_SELF, []); (PUSH_TEMPORARY_VARIABLE, [K 0])];
  (* 163 *) [(LINE_NUMBER_BYTECODE, [F]); (PUSH_RECEIVER_VARIABLE, [K 3])];
  (* 164 *) [(PUSH_TEMPORARY_VARIABLE, [K 2]); (SEND, [F; K 0; K 1])];
  (* 165 *) [(SEND_SPECIAL, [K 5]); (POP_JUMP_FALSE, [F])];
  (* 166 *) [(STORE_TEMPORARY_VARIABLE, [K 2]); (LINE_NUMBER_BYTECODE, [F])];
  (* 167 *) [(STORE_TEMPORARY_VARIABLE, [K 3]); (LINE_NUMBER_BYTECODE, [F]); (POP_STACK_TOP, [])];
  (* 168 *) [(PUSH_LIT_CONSTANT, [K 1]); (SEND_IMMEDIATE, [F; K 0])];
  (* 169 *) [(PUSH_TEMPORARY_VARIABLE, [F]); (SEND_ARITH, [K 6])];
  (* 170 *) [(POP_STACK_TOP, []); (DUP_STACK_TOP, []); (PUSH_TEMPORARY_VARIABLE, [F]); (PUSH_INTEGER, [K 1]); (SEND_ARITH, [K 0])];
  (* 171 *) [(PUSH_SELF, []); (SEND, [F; K 0; K 1])];
  (* 172 *) [(STORE_TEMPORARY_VARIABLE, [K 0]); (LINE_NUMBER_BYTECODE, [F]); (POP_STACK_TOP, [])];
  (* 173 *) [(DUP_STACK_TOP, []); (LINE_NUMBER_BYTECODE, [F])];
  (* 174 *) [(PUSH_SELF, []); (PUSH_LIT_CONSTANT, [F]); (SEND_IMMEDIATE, [K 49; K 0])];
  (* 175 *) [(POP_STACK_TOP, []); (PUSH_RECEIVER_VARIABLE, [F])];
  (* 176 *) [(LINE_NUMBER_BYTECODE, [F]); (PUSH_SELF, []); (SEND_IMMEDIATE, [K 84; K 0])];
  (* 177 *) [(LINE_NUMBER_BYTECODE, [F]); (PUSH_LIT_VARIABLE, [K 2])];
  (* 178 *) [(PUSH_LIT_CONSTANT, [F]); (MAKE_DIRTY_BLOCK, []); (SEND, [K 3; K 0; K 1])];
  (* 179 *) [(LINE_NUMBER_BYTECODE, [F]); (PUSH_LIT_CONSTANT, [K 0])];
  (* 180 *) [(DUP_STACK_TOP, []); (PUSH_LIT_CONSTANT, [F]); (SEND_IMMEDIATE, [K 36; K 0])];
  (* 181 *) [(LINE_NUMBER_BYTECODE, [F]); (PUSH_OUTER_TEMP, [K 1; K 1])];
  (* 182 *) [(PUSH_INTEGER, [F]); (SEND_ARITH, [K 13])];
  (* 183 *) [(PUSH_LIT_CONSTANT, [K 1]); (MAKE_DIRTY_BLOCK, []); (SEND_IMMEDIATE, [F; K 0])];
  (* 184 *) [(PUSH_TEMPORARY_VARIABLE, [K 3]); (SEND_IMMEDIATE, [F; K 0])];
  (* 185 *) [(LINE_NUMBER_BYTECODE, [F]); (PUSH_SPECIAL, [K 0]); (RETURN_CONTEXT_STACK_TOP, [])];
  (* 186 *) [(LINE_NUMBER_BYTECODE, [F]); (PUSH_RECEIVER_VARIABLE, [K 5])];
  (* 187 *) [(PUSH_LIT_CONSTANT, [F]); (MAKE_DIRTY_BLOCK, []); (SEND, [K 2; K 0; K 1])];
  (* 188 *) [(PUSH_TEMPORARY_VARIABLE, [F]); (SEND_SPECIAL, [K 7])];
  (* 189 *) [(PUSH_INTEGER, [F]); (RETURN_CONTEXT_STACK_TOP, [])];
  (* 190 *) [(PUSH_TEMPORARY_VARIABLE, [K 0]); (SEND, [F; K 0; K 2])];
  (* 191 *) [(PUSH_TEMPORARY_VARIABLE, [F]); (PUSH_INTEGER, [K 1]); (SEND_ARITH, [K 1])];
  (* 192 *) [(PUSH_SELF, []); (PUSH_LIT_CONSTANT, [F])];
  (* 193 *) [(LINE_NUMBER_BYTECODE, [F]); (PUSH_RECEIVER_VARIABLE, [K 4])];
  (* 194 *) [(PUSH_OUTER_TEMP, [K 0; K 1]); (SEND_IMMEDIATE, [F; K 0])];
  (* 195 *) [(LINE_NUMBER_BYTECODE, [F]); (PUSH_SELF, []); (SEND, [K 1; K 0; K 0])];
  (* 196 *) [(PUSH_OUTER_TEMP, [K 0; K 1]); (SEND, [F; K 0; K 1])];
  (* 197 *) [(PUSH_TEMPORARY_VARIABLE, [K 4]); (SEND_IMMEDIATE, [F; K 0])];
  (* 198 *) [(PUSH_INTEGER, [F]); (SEND_IMMEDIATE, [K 41; K 0])];
  (* 199 *) [(SEND, [F; K 0; K 4])];
  (* 200 *) [(PUSH_TEMPORARY_VARIABLE, [F]); (PUSH_TEMPORARY_VARIABLE, [K 2])];
  (* 201 *) [(PUSH_SELF, []); (SEND_SPECIAL, [K 3])];
  (* 202 *) [(PUSH_TEMPORARY_VARIABLE, [K 1]); (SEND, [H; K 0; L])];
  (* 203 *) [(PUSH_SELF, []); (PUSH_TEMPORARY_VARIABLE, [K 1]); (SEND, [F; K 0; K 1])];
  (* 204 *) [(PUSH_LIT_CONSTANT, [F]); (SEND, [K 4; K 0; K 1])];
  (* 205 *) [(PUSH_INTEGER, [F]); (SEND, [K 0; K 0; K 1])];
  (* 206 *) [(PUSH_RECEIVER_VARIABLE, [F]); (SEND_SPECIAL, [K 2])];
  (* 207 *) [(PUSH_TEMPORARY_VARIABLE, [K 1]); (SEND, [F; K 0; K 2])];
  (* 208 *) [(PUSH_TEMPORARY_VARIABLE, [K 0]); (PUSH_TEMPORARY_VARIABLE, [K 1]); (SEND, [F; K 0; K 2])];
  (* 209 *) [(PUSH_TEMPORARY_VARIABLE, [F]); (POP_INTO_NEW_STACKTOP, [K 0])];
  (* 210 *) [(PUSH_LIT_CONSTANT, [F]); (MAKE_DIRTY_BLOCK, []); (SEND, [K 5; K 0; K 1])];
  (* 211 *) [(SEND, [F; K 1; K 1])];
  (* 212 *) [(PUSH_LIT_CONSTANT, [F]); (MAKE_DIRTY_BLOCK, []); (SEND, [K 4; K 0; K 1])];
  (* 213 *) [(PUSH_RECEIVER_VARIABLE, [K 1]); (SEND_IMMEDIATE, [F; K 0])];
  (* 214 *) [(STORE_OUTER_TEMP, [F; K 1]); (RETURN_CONTEXT_STACK_TOP, [])];
  (* 215 *) [(POP_STACK_TOP, []); (LINE_NUMBER_BYTECODE, [F]); (SEND_IMMEDIATE, [K 37; K 0])];
  (* 216 *) [(LINE_NUMBER_BYTECODE, [F]); (PUSH_SELF, []); (SEND_SPECIAL, [K 3])];
  (* 217 *) [(PUSH_TEMPORARY_VARIABLE, [K 1]); (SEND, [F; K 0; K 0])];
  (* 218 *) [(LINE_NUMBER_BYTECODE, [F]); (PUSH_SELF, []); (SEND_IMMEDIATE, [K 130; K 0])];
  (* 219 *) [(PUSH_RECEIVER_VARIABLE, [K 0]); (SEND_IMMEDIATE, [F; K 0])];
  (* 220 *) [(PUSH_TEMPORARY_VARIABLE, [K 0]); (PUSH_LIT_VARIABLE, [F])];
  (* 221 *) [(STORE_TEMPORARY_VARIABLE, [K 0]); (LINE_NUMBER_BYTECODE, [F])];
  (* 222 *) [(PUSH_RECEIVER_VARIABLE, [K 2]); (SEND_IMMEDIATE, [F; K 0])];
  (* 223 *) [(LINE_NUMBER_BYTECODE, [F]); (PUSH_SELF, []); (SEND, [K 2; K 0; K 0])];
  (* 224 *) [(LINE_NUMBER_BYTECODE, [F]); (POP_STACK_TOP, []); (PUSH_TEMPORARY_VARIABLE, [K 2])];
  (* 225 *) [(PUSH_LIT_CONSTANT, [F]); (MAKE_DIRTY_BLOCK, []); (SEND, [K 6; K 0; K 1])];
  (* 226 *) [(PUSH_SPECIAL, [F]); (RETURN_METHOD_STACK_TOP, [])];
  (* 227 *) [(PUSH_INTEGER, [F]); (SEND_ARITH, [K 5])];
  (* 228 *) [(LINE_NUMBER_BYTECODE, [F]); (POP_STACK_TOP, []); (PUSH_RECEIVER_VARIABLE, [K 1])];
  (* 229 *) [(LINE_NUMBER_BYTECODE, [F]); (PUSH_LIT_VARIABLE, [K 3])];
  (* 230 *) [(PUSH_LIT_CONSTANT, [K 2]); (SEND_IMMEDIATE, [F; K 0])];
  (* 231 *) [(SEND, [F; K 1; K 0])];
  (* 232 *) [(PUSH_SPECIAL, [K 0]); (STORE_RECEIVER_VARIABLE, [F])];
  (* 233 *) [(PUSH_SELF, []); (PUSH_TEMPORARY_VARIABLE, [F]); (SEND, [K 0; K 0; K 1])];
  (* 234 *) [(LINE_NUMBER_BYTECODE, [F]); (POP_STACK_TOP, []); (PUSH_TEMPORARY_VARIABLE, [K 0]); (RETURN_CONTEXT_STACK_TOP, [])];
  (* 235 *) [(PUSH_LIT_CONSTANT, [F]); (SEND_SPECIAL, [K 8])];
  (* 236 *) [(PUSH_LIT_CONSTANT, [F]); (MAKE_DIRTY_BLOCK, []); (SEND, [K 1; K 0; K 1])];
  (* 237 *) [(LINE_NUMBER_BYTECODE, [F]); (POP_STACK_TOP, []); (PUSH_TEMPORARY_VARIABLE, [K 3])];
  (* 238 *) [(POP_STACK_TOP, []); (DUP_STACK_TOP, []); (SEND_IMMEDIATE, [F; K 0])];
  (* 239 *) [(PUSH_LIT_CONSTANT, [F]); (PUSH_TEMPORARY_VARIABLE, [K 0]); (SEND_SPECIAL, [K 1])];
  (* 240 *) [(DUP_STACK_TOP, []); (PUSH_TEMPORARY_VARIABLE, [F]); (PUSH_INTEGER, [K 1]); (SEND_ARITH, [K 0])];
  (* 241 *) [(LINE_NUMBER_BYTECODE, [F]); (PUSH_TEMPORARY_VARIABLE, [K 4])];
  (* 242 *) [(POP_STACK_TOP, []); (LINE_NUMBER_BYTECODE, [F]); (PUSH_LIT_VARIABLE, [K 1])];
  (* 243 *) [(DUP_STACK_TOP, []); (PUSH_LIT_CONSTANT, [F]); (SEND, [K 1; K 0; K 1])];
  (* 244 *) [(POP_INTO_NEW_STACKTOP, [K 1]); (SEND, [F; K 0; K 1])];
  (* 245 *) [(LINE_NUMBER_BYTECODE, [F]); (POP_STACK_TOP, []); (PUSH_TEMPORARY_VARIABLE, [K 1]); (RETURN_CONTEXT_STACK_TOP, [])];
  (* 246 *) [(STORE_TEMPORARY_VARIABLE, [K 3]); (LINE_NUMBER_BYTECODE, [F])];
  (* 247 *) [(DUP_STACK_TOP, []); (SEND, [F; K 0; K 0])];
  (* 248 *) [(STORE_RECEIVER_VARIABLE, [F]); (RETURN_CONTEXT_STACK_TOP, [])];
  (* 249 *) [(LINE_NUMBER_BYTECODE, [F]); (PUSH_SELF, []); (SEND, [K 3; K 0; K 0])];
  (* 250 *) [(SEND_SPECIAL, [K 5]); (DUP_STACK_TOP, []); (POP_JUMP_FALSE, [F])];
  (* 251 *) [(DUP_STACK_TOP, []); (PUSH_LIT_CONSTANT, [F])];
  (* 252 *) [(LINE_NUMBER_BYTECODE, [F]); (PUSH_TEMPORARY_VARIABLE, [K 0]); (RETURN_CONTEXT_STACK_TOP, [])];
  (* 253 *) [(PUSH_INTEGER, [F]); (SEND_SPECIAL, [K 1])];
  (* 254 *) [(PUSH_TEMPORARY_VARIABLE, [F]); (SEND_SPECIAL, [K 3])];
  (* 255 *) [(LINE_NUMBER_BYTECODE, [F]); (PUSH_OUTER_TEMP, [K 2; K 1])]].

(** the operations of the interpreter; libgst/vm.def:211-898 *)
Inductive vmop :=
  | V_PLUS_SPECIAL
  | V_MINUS_SPECIAL
  | V_LESS_THAN_SPECIAL
  | V_GREATER_THAN_SPECIAL
  | V_LESS_EQUAL_SPECIAL
  | V_GREATER_EQUAL_SPECIAL
  | V_EQUAL_SPECIAL
  | V_NOT_EQUAL_SPECIAL
  | V_TIMES_SPECIAL
  | V_DIVIDE_SPECIAL
  | V_REMAINDER_SPECIAL
  | V_BIT_XOR_SPECIAL
  | V_BIT_SHIFT_SPECIAL
  | V_INTEGER_DIVIDE_SPECIAL
  | V_BIT_AND_SPECIAL
  | V_BIT_OR_SPECIAL
  | V_AT_SPECIAL
  | V_AT_PUT_SPECIAL
  | V_SIZE_SPECIAL
  | V_CLASS_SPECIAL
  | V_IS_NIL_SPECIAL
  | V_NOT_NIL_SPECIAL
  | V_VALUE_SPECIAL
  | V_VALUE_COLON_SPECIAL
  | V_SAME_OBJECT_SPECIAL
  | V_JAVA_AS_INT_SPECIAL
  | V_JAVA_AS_LONG_SPECIAL
  | V_INVALID
  | V_SEND
  | V_SEND_SUPER
  | V_SEND_IMMEDIATE
  | V_SEND_SUPER_IMMEDIATE
  | V_PUSH_TEMPORARY_VARIABLE
  | V_PUSH_OUTER_TEMP
  | V_PUSH_LIT_VARIABLE
  | V_PUSH_RECEIVER_VARIABLE
  | V_STORE_TEMPORARY_VARIABLE
  | V_STORE_OUTER_TEMP
  | V_STORE_LIT_VARIABLE
  | V_STORE_RECEIVER_VARIABLE
  | V_JUMP_BACK
  | V_JUMP
  | V_POP_JUMP_TRUE
  | V_POP_JUMP_FALSE
  | V_PUSH_INTEGER
  | V_PUSH_SPECIAL
  | V_PUSH_LIT_CONSTANT
  | V_POP_INTO_NEW_STACKTOP
  | V_POP_STACK_TOP
  | V_MAKE_DIRTY_BLOCK
  | V_RETURN_METHOD_STACK_TOP
  | V_RETURN_CONTEXT_STACK_TOP
  | V_DUP_STACK_TOP
  | V_EXIT_INTERPRETER
  | V_LINE_NUMBER_BYTECODE
  | V_PUSH_SELF.

(** their operands: arg, arg >> 8, arg & 255, a number *)
Inductive vexp := VArg | VHi | VLo | VK (n : Z).

(** libgst/vm.def:924-2445; PREFETCH and ADVANCE, which move ip, are left out *)
Definition vm_table : list (list (vmop * list vexp)) := [
  (* 0 *) [(V_PLUS_SPECIAL, [])];
  (* 1 *) [(V_MINUS_SPECIAL, [])];
  (* 2 *) [(V_LESS_THAN_SPECIAL, [])];
  (* 3 *) [(V_GREATER_THAN_SPECIAL, [])];
  (* 4 *) [(V_LESS_EQUAL_SPECIAL, [])];
  (* 5 *) [(V_GREATER_EQUAL_SPECIAL, [])];
  (* 6 *) [(V_EQUAL_SPECIAL, [])];
  (* 7 *) [(V_NOT_EQUAL_SPECIAL, [])];
  (* 8 *) [(V_TIMES_SPECIAL, [])];
  (* 9 *) [(V_DIVIDE_SPECIAL, [])];
  (* 10 *) [(V_REMAINDER_SPECIAL, [])];
  (* 11 *) [(V_BIT_XOR_SPECIAL, [])];
  (* 12 *) [(V_BIT_SHIFT_SPECIAL, [])];
  (* 13 *) [(V_INTEGER_DIVIDE_SPECIAL, [])];
  (* 14 *) [(V_BIT_AND_SPECIAL, [])];
  (* 15 *) [(V_BIT_OR_SPECIAL, [])];
  (* 16 *) [(V_AT_SPECIAL, [])];
  (* 17 *) [(V_AT_PUT_SPECIAL, [])];
  (* 18 *) [(V_SIZE_SPECIAL, [])];
  (* 19 *) [(V_CLASS_SPECIAL, [])];
  (* 20 *) [(V_IS_NIL_SPECIAL, [])];
  (* 21 *) [(V_NOT_NIL_SPECIAL, [])];
  (* 22 *) [(V_VALUE_SPECIAL, [])];
  (* 23 *) [(V_VALUE_COLON_SPECIAL, [])];
  (* 24 *) [(V_SAME_OBJECT_SPECIAL, [])];
  (* 25 *) [(V_JAVA_AS_INT_SPECIAL, [])];
  (* 26 *) [(V_JAVA_AS_LONG_SPECIAL, [])];
  (* 27 *) [(V_INVALID, [VArg])];
  (* 28 *) [(V_SEND, [VHi; VLo])];
  (* 29 *) [(V_SEND_SUPER, [VHi; VLo])];
  (* 30 *) [(V_SEND_IMMEDIATE, [VArg])];
  (* 31 *) [(V_SEND_SUPER_IMMEDIATE, [VArg])];
  (* 32 *) [(V_PUSH_TEMPORARY_VARIABLE, [VArg])];
  (* 33 *) [(V_PUSH_OUTER_TEMP, [VHi; VLo])];
  (* 34 *) [(V_PUSH_LIT_VARIABLE, [VArg])];
  (* 35 *) [(V_PUSH_RECEIVER_VARIABLE, [VArg])];
  (* 36 *) [(V_STORE_TEMPORARY_VARIABLE, [VArg])];
  (* 37 *) [(V_STORE_OUTER_TEMP, [VHi; VLo])];
  (* 38 *) [(V_STORE_LIT_VARIABLE, [VArg])];
  (* 39 *) [(V_STORE_RECEIVER_VARIABLE, [VArg])];
  (* 40 *) [(V_JUMP_BACK, [VArg])];
  (* 41 *) [(V_JUMP, [VArg])];
  (* 42 *) [(V_POP_JUMP_TRUE, [VArg])];
  (* 43 *) [(V_POP_JUMP_FALSE, [VArg])];
  (* 44 *) [(V_PUSH_INTEGER, [VArg])];
  (* 45 *) [(V_PUSH_SPECIAL, [VArg])];
  (* 46 *) [(V_PUSH_LIT_CONSTANT, [VArg])];
  (* 47 *) [(V_POP_INTO_NEW_STACKTOP, [VArg])];
  (* 48 *) [(V_POP_STACK_TOP, [])];
  (* 49 *) [(V_MAKE_DIRTY_BLOCK, [])];
  (* 50 *) [(V_RETURN_METHOD_STACK_TOP, [])];
  (* 51 *) [(V_RETURN_CONTEXT_STACK_TOP, [])];
  (* 52 *) [(V_DUP_STACK_TOP, [])];
  (* 53 *) [(V_EXIT_INTERPRETER, [])];
  (* 54 *) [(V_LINE_NUMBER_BYTECODE, [])];
  (* 55 *) [];
  (* 56 *) [(V_PUSH_SELF, [])];
  (* 57 *) [(V_INVALID, [VArg])];
  (* 58 *) [(V_INVALID, [VArg])];
  (* 59 *) [(V_INVALID, [VArg])];
  (* 60 *) [(V_INVALID, [VArg])];
  (* 61 *) [(V_INVALID, [VArg])];
  (* 62 *) [(V_INVALID, [VArg])];
  (* 63 *) [(V_INVALID, [VArg])];
  (* 64 *) [(V_SEND, [VArg; VK 1])];
  (* 65 *) [(V_SEND, [VArg; VK 0])];
  (* 66 *) [(V_PUSH_SELF, []); (V_RETURN_CONTEXT_STACK_TOP, [])];
  (* 67 *) [(V_LINE_NUMBER_BYTECODE, []); (V_PUSH_SELF, [])];
  (* 68 *) [(V_LINE_NUMBER_BYTECODE, []); (V_POP_STACK_TOP, [])];
  (* 69 *) [(V_LINE_NUMBER_BYTECODE, []); (V_PUSH_TEMPORARY_VARIABLE, [VK 0])];
  (* 70 *) [(V_PUSH_LIT_CONSTANT, [VArg]); (V_MAKE_DIRTY_BLOCK, [])];
  (* 71 *) [(V_SEND, [VArg; VK 2])];
  (* 72 *) [(V_POP_STACK_TOP, []); (V_DUP_STACK_TOP, [])];
  (* 73 *) [(V_PUSH_TEMPORARY_VARIABLE, [VK 0]); (V_SEND_IMMEDIATE, [VArg])];
  (* 74 *) [(V_PUSH_SELF, []); (V_SEND, [VArg; VK 0])];
  (* 75 *) [(V_PUSH_SPECIAL, [VArg]); (V_RETURN_CONTEXT_STACK_TOP, [])];
  (* 76 *) [(V_PUSH_SELF, []); (V_SEND_IMMEDIATE, [VArg])];
  (* 77 *) [(V_PUSH_OUTER_TEMP, [VArg; VK 1])];
  (* 78 *) [(V_STORE_TEMPORARY_VARIABLE, [VArg]); (V_POP_STACK_TOP, [])];
  (* 79 *) [(V_PUSH_SELF, []); (V_PUSH_TEMPORARY_VARIABLE, [VArg])];
  (* 80 *) [(V_STORE_RECEIVER_VARIABLE, [VArg]); (V_PUSH_SELF, []); (V_RETURN_CONTEXT_STACK_TOP, [])];
  (* 81 *) [(V_PUSH_INTEGER, [VArg]); (V_PLUS_SPECIAL, [])];
  (* 82 *) [(V_LINE_NUMBER_BYTECODE, []); (V_PUSH_LIT_VARIABLE, [VK 0])];
  (* 83 *) [(V_PUSH_TEMPORARY_VARIABLE, [VK 0]); (V_PUSH_TEMPORARY_VARIABLE, [VArg])];
  (* 84 *) [(V_PUSH_TEMPORARY_VARIABLE, [VK 0]); (V_SEND, [VHi; VLo])];
  (* 85 *) [(V_LINE_NUMBER_BYTECODE, []); (V_PUSH_TEMPORARY_VARIABLE, [VK 1])];
  (* 86 *) [(V_IS_NIL_SPECIAL, []); (V_POP_JUMP_FALSE, [VArg])];
  (* 87 *) [(V_PUSH_INTEGER, [VArg]); (V_EQUAL_SPECIAL, [])];
  (* 88 *) [(V_SEND, [VArg; VK 3])];
  (* 89 *) [(V_PUSH_TEMPORARY_VARIABLE, [VK 0]); (V_SEND, [VArg; VK 1])];
  (* 90 *) [(V_LINE_NUMBER_BYTECODE, []); (V_PUSH_SELF, []); (V_SEND, [VK 0; VK 0])];
  (* 91 *) [(V_PUSH_TEMPORARY_VARIABLE, [VArg]); (V_RETURN_CONTEXT_STACK_TOP, [])];
  (* 92 *) [(V_PUSH_LIT_CONSTANT, [VArg]); (V_SEND_IMMEDIATE, [VK 36])];
  (* 93 *) [(V_SAME_OBJECT_SPECIAL, []); (V_POP_JUMP_FALSE, [VArg])];
  (* 94 *) [(V_PUSH_LIT_CONSTANT, [VArg]); (V_SEND, [VK 1; VK 1])];
  (* 95 *) [(V_LINE_NUMBER_BYTECODE, []); (V_POP_STACK_TOP, []); (V_PUSH_SELF, [])];
  (* 96 *) [(V_POP_STACK_TOP, []); (V_DUP_STACK_TOP, []); (V_LINE_NUMBER_BYTECODE, [])];
  (* 97 *) [(V_PUSH_TEMPORARY_VARIABLE, [VK 0]); (V_SEND, [VArg; VK 0])];
  (* 98 *) [(V_PUSH_TEMPORARY_VARIABLE, [VK 1]); (V_SEND_IMMEDIATE, [VArg])];
  (* 99 *) [(V_PUSH_LIT_CONSTANT, [VArg]); (V_EQUAL_SPECIAL, [])];
  (* 100 *) [(V_PUSH_INTEGER, [VArg]); (V_MINUS_SPECIAL, [])];
  (* 101 *) [(V_DUP_STACK_TOP, []); (V_POP_JUMP_FALSE, [VArg])];
  (* 102 *) [(V_POP_STACK_TOP, []); (V_LINE_NUMBER_BYTECODE, [])];
  (* 103 *) [(V_PUSH_INTEGER, [VArg]); (V_SEND_IMMEDIATE, [VK 32])];
  (* 104 *) [(V_PUSH_TEMPORARY_VARIABLE, [VArg]); (V_SIZE_SPECIAL, [])];
  (* 105 *) [(V_PUSH_SELF, []); (V_SEND, [VHi; VLo])];
  (* 106 *) [(V_LINE_NUMBER_BYTECODE, []); (V_PUSH_TEMPORARY_VARIABLE, [VK 2])];
  (* 107 *) [(V_POP_STACK_TOP, []); (V_SEND_IMMEDIATE, [VArg])];
  (* 108 *) [(V_PUSH_TEMPORARY_VARIABLE, [VArg]); (V_PUSH_INTEGER, [VK 1]); (V_PLUS_SPECIAL, [])];
  (* 109 *) [(V_LINE_NUMBER_BYTECODE, []); (V_PUSH_RECEIVER_VARIABLE, [VK 0])];
  (* 110 *) [(V_PUSH_LIT_CONSTANT, [VArg]); (V_SEND_IMMEDIATE, [VK 38])];
  (* 111 *) [(V_PUSH_INTEGER, [VArg]); (V_AT_SPECIAL, [])];
  (* 112 *) [(V_LINE_NUMBER_BYTECODE, []); (V_PUSH_RECEIVER_VARIABLE, [VK 1])];
  (* 113 *) [(V_PUSH_TEMPORARY_VARIABLE, [VK 0]); (V_PUSH_LIT_CONSTANT, [VArg])];
  (* 114 *) [(V_DUP_STACK_TOP, []); (V_POP_JUMP_TRUE, [VArg])];
  (* 115 *) [(V_PUSH_TEMPORARY_VARIABLE, [VArg]); (V_AT_SPECIAL, [])];
  (* 116 *) [(V_PUSH_TEMPORARY_VARIABLE, [VK 2]); (V_SEND_IMMEDIATE, [VArg])];
  (* 117 *) [(V_PUSH_LIT_CONSTANT, [VArg]); (V_SEND_IMMEDIATE, [VK 49])];
  (* 118 *) [(V_STORE_TEMPORARY_VARIABLE, [VK 1]); (V_LINE_NUMBER_BYTECODE, []); (V_POP_STACK_TOP, [])];
  (* 119 *) [(V_PUSH_TEMPORARY_VARIABLE, [VK 1]); (V_SEND, [VArg; VK 1])];
  (* 120 *) [(V_STORE_RECEIVER_VARIABLE, [VArg]); (V_POP_STACK_TOP, [])];
  (* 121 *) [(V_STORE_OUTER_TEMP, [VArg; VK 1])];
  (* 122 *) [(V_PUSH_INTEGER, [VArg]); (V_SEND_IMMEDIATE, [VK 96])];
  (* 123 *) [(V_POP_STACK_TOP, []); (V_PUSH_TEMPORARY_VARIABLE, [VArg])];
  (* 124 *) [(V_PUSH_RECEIVER_VARIABLE, [VArg]); (V_RETURN_CONTEXT_STACK_TOP, [])];
  (* 125 *) [(V_LINE_NUMBER_BYTECODE, []); (V_POP_STACK_TOP, []); (V_PUSH_TEMPORARY_VARIABLE, [VK 1])];
  (* 126 *) [(V_LINE_NUMBER_BYTECODE, []); (V_POP_STACK_TOP, []); (V_PUSH_TEMPORARY_VARIABLE, [VK 0])];
  (* 127 *) [(V_LINE_NUMBER_BYTECODE, []); (V_PUSH_SELF, []); (V_PUSH_LIT_CONSTANT, [VK 0])];
  (* 128 *) [(V_PUSH_LIT_CONSTANT, [VArg]); (V_RETURN_CONTEXT_STACK_TOP, [])];
  (* 129 *) [(V_PUSH_SELF, []); (V_SIZE_SPECIAL, [])];
  (* 130 *) [(V_IS_NIL_SPECIAL, []); (V_POP_JUMP_TRUE, [VArg])];
  (* 131 *) [(V_PUSH_TEMPORARY_VARIABLE, [VArg]); (V_AT_PUT_SPECIAL, [])];
  (* 132 *) [(V_LINE_NUMBER_BYTECODE, []); (V_PUSH_LIT_VARIABLE, [VK 1])];
  (* 133 *) [(V_PUSH_TEMPORARY_VARIABLE, [VArg]); (V_PLUS_SPECIAL, [])];
  (* 134 *) [(V_POP_STACK_TOP, []); (V_JUMP_BACK, [VArg])];
  (* 135 *) [(V_POP_STACK_TOP, []); (V_PUSH_LIT_VARIABLE, [VArg])];
  (* 136 *) [(V_PUSH_INTEGER, [VK 1]); (V_STORE_TEMPORARY_VARIABLE, [VArg])];
  (* 137 *) [(V_PUSH_LIT_CONSTANT, [VArg]); (V_SEND, [VK 2; VK 1])];
  (* 138 *) [(V_LINE_NUMBER_BYTECODE, []); (V_PUSH_TEMPORARY_VARIABLE, [VK 3])];
  (* 139 *) [(V_LINE_NUMBER_BYTECODE, []); (V_PUSH_OUTER_TEMP, [VK 0; VK 1])];
  (* 140 *) [(V_PUSH_RECEIVER_VARIABLE, [VArg]); (V_SEND, [VK 0; VK 0])];
  (* 141 *) [(V_PUSH_INTEGER, [VArg]); (V_GREATER_THAN_SPECIAL, [])];
  (* 142 *) [(V_PUSH_TEMPORARY_VARIABLE, [VArg]); (V_VALUE_SPECIAL, [])];
  (* 143 *) [(V_PUSH_TEMPORARY_VARIABLE, [VArg]); (V_MINUS_SPECIAL, [])];
  (* 144 *) [(V_PUSH_LIT_CONSTANT, [VArg]); (V_SEND, [VK 3; VK 1])];
  (* 145 *) [(V_PUSH_SPECIAL, [VK 0]); (V_SAME_OBJECT_SPECIAL, []); (V_POP_JUMP_FALSE, [VArg])];
  (* 146 *) [(V_STORE_TEMPORARY_VARIABLE, [VK 2]); (V_LINE_NUMBER_BYTECODE, []); (V_POP_STACK_TOP, [])];
  (* 147 *) [(V_SAME_OBJECT_SPECIAL, []); (V_POP_JUMP_TRUE, [VArg])];
  (* 148 *) [(V_PUSH_INTEGER, [VArg]); (V_TIMES_SPECIAL, [])];
  (* 149 *) [(V_LINE_NUMBER_BYTECODE, []); (V_PUSH_RECEIVER_VARIABLE, [VK 2])];
  (* 150 *) [(V_PUSH_INTEGER, [VArg]); (V_LESS_THAN_SPECIAL, [])];
  (* 151 *) [(V_PUSH_LIT_CONSTANT, [VArg]); (V_AT_PUT_SPECIAL, [])];
  (* 152 *) [(V_PUSH_OUTER_TEMP, [VArg; VK 2])];
  (* 153 *) [(V_LINE_NUMBER_BYTECODE, []); (V_PUSH_SELF, []); (V_PUSH_TEMPORARY_VARIABLE, [VK 0]); (V_SEND, [VK 0; VK 1])];
  (* 154 *) [(V_PUSH_SELF, []); (V_PUSH_TEMPORARY_VARIABLE, [VK 0]); (V_SEND, [VArg; VK 1])];
  (* 155 *) [(V_LINE_NUMBER_BYTECODE, []); (V_PUSH_SELF, []); (V_SEND_IMMEDIATE, [VK 40])];
  (* 156 *) [(V_PUSH_TEMPORARY_VARIABLE, [VArg]); (V_PUSH_TEMPORARY_VARIABLE, [VK 3])];
  (* 157 *) [(V_STORE_TEMPORARY_VARIABLE, [VK 1]); (V_LINE_NUMBER_BYTECODE, [])];
  (* 158 *) [(V_LINE_NUMBER_BYTECODE, []); (V_PUSH_TEMPORARY_VARIABLE, [VK 0]); (V_SEND, [VK 0; VK 0])];
  (* 159 *) [(V_PUSH_INTEGER, [VArg]); (V_BIT_AND_SPECIAL, [])];
  (* 160 *) [(V_PUSH_TEMPORARY_VARIABLE, [VK 2]); (V_SEND, [VArg; VK 0])];
  (* 161 *) [(V_PUSH_TEMPORARY_VARIABLE, [VK 0]); (V_PUSH_TEMPORARY_VARIABLE, [VK 1]); (V_SEND, [VHi; VLo])];
  (* 162 *) [(V_LINE_NUMBER_BYTECODE, []); (V_PUSH_SELF, []); (V_PUSH_TEMPORARY_VARIABLE, [VK 0])];
  (* 163 *) [(V_LINE_NUMBER_BYTECODE, []); (V_PUSH_RECEIVER_VARIABLE, [VK 3])];
  (* 164 *) [(V_PUSH_TEMPORARY_VARIABLE, [VK 2]); (V_SEND, [VArg; VK 1])];
  (* 165 *) [(V_NOT_NIL_SPECIAL, []); (V_POP_JUMP_FALSE, [VArg])];
  (* 166 *) [(V_STORE_TEMPORARY_VARIABLE, [VK 2]); (V_LINE_NUMBER_BYTECODE, [])];
  (* 167 *) [(V_STORE_TEMPORARY_VARIABLE, [VK 3]); (V_LINE_NUMBER_BYTECODE, []); (V_POP_STACK_TOP, [])];
  (* 168 *) [(V_PUSH_LIT_CONSTANT, [VK 1]); (V_SEND_IMMEDIATE, [VArg])];
  (* 169 *) [(V_PUSH_TEMPORARY_VARIABLE, [VArg]); (V_EQUAL_SPECIAL, [])];
  (* 170 *) [(V_POP_STACK_TOP, []); (V_DUP_STACK_TOP, []); (V_PUSH_TEMPORARY_VARIABLE, [VArg]); (V_PUSH_INTEGER, [VK 1]); (V_PLUS_SPECIAL, [])];
  (* 171 *) [(V_PUSH_SELF, []); (V_SEND, [VArg; VK 1])];
  (* 172 *) [(V_STORE_TEMPORARY_VARIABLE, [VK 0]); (V_LINE_NUMBER_BYTECODE, []); (V_POP_STACK_TOP, [])];
  (* 173 *) [(V_DUP_STACK_TOP, []); (V_LINE_NUMBER_BYTECODE, [])];
  (* 174 *) [(V_PUSH_SELF, []); (V_PUSH_LIT_CONSTANT, [VArg]); (V_SEND_IMMEDIATE, [VK 49])];
  (* 175 *) [(V_POP_STACK_TOP, []); (V_PUSH_RECEIVER_VARIABLE, [VArg])];
  (* 176 *) [(V_LINE_NUMBER_BYTECODE, []); (V_PUSH_SELF, []); (V_SEND_IMMEDIATE, [VK 84])];
  (* 177 *) [(V_LINE_NUMBER_BYTECODE, []); (V_PUSH_LIT_VARIABLE, [VK 2])];
  (* 178 *) [(V_PUSH_LIT_CONSTANT, [VArg]); (V_MAKE_DIRTY_BLOCK, []); (V_SEND, [VK 3; VK 1])];
  (* 179 *) [(V_LINE_NUMBER_BYTECODE, []); (V_PUSH_LIT_CONSTANT, [VK 0])];
  (* 180 *) [(V_DUP_STACK_TOP, []); (V_PUSH_LIT_CONSTANT, [VArg]); (V_SEND_IMMEDIATE, [VK 36])];
  (* 181 *) [(V_LINE_NUMBER_BYTECODE, []); (V_PUSH_OUTER_TEMP, [VK 1; VK 1])];
  (* 182 *) [(V_PUSH_INTEGER, [VArg]); (V_INTEGER_DIVIDE_SPECIAL, [])];
  (* 183 *) [(V_PUSH_LIT_CONSTANT, [VK 1]); (V_MAKE_DIRTY_BLOCK, []); (V_SEND_IMMEDIATE, [VArg])];
  (* 184 *) [(V_PUSH_TEMPORARY_VARIABLE, [VK 3]); (V_SEND_IMMEDIATE, [VArg])];
  (* 185 *) [(V_LINE_NUMBER_BYTECODE, []); (V_PUSH_SPECIAL, [VK 0]); (V_RETURN_CONTEXT_STACK_TOP, [])];
  (* 186 *) [(V_LINE_NUMBER_BYTECODE, []); (V_PUSH_RECEIVER_VARIABLE, [VK 5])];
  (* 187 *) [(V_PUSH_LIT_CONSTANT, [VArg]); (V_MAKE_DIRTY_BLOCK, []); (V_SEND, [VK 2; VK 1])];
  (* 188 *) [(V_PUSH_TEMPORARY_VARIABLE, [VArg]); (V_VALUE_COLON_SPECIAL, [])];
  (* 189 *) [(V_PUSH_INTEGER, [VArg]); (V_RETURN_CONTEXT_STACK_TOP, [])];
  (* 190 *) [(V_PUSH_TEMPORARY_VARIABLE, [VK 0]); (V_SEND, [VArg; VK 2])];
  (* 191 *) [(V_PUSH_TEMPORARY_VARIABLE, [VArg]); (V_PUSH_INTEGER, [VK 1]); (V_MINUS_SPECIAL, [])];
  (* 192 *) [(V_PUSH_SELF, []); (V_PUSH_LIT_CONSTANT, [VArg])];
  (* 193 *) [(V_LINE_NUMBER_BYTECODE, []); (V_PUSH_RECEIVER_VARIABLE, [VK 4])];
  (* 194 *) [(V_PUSH_OUTER_TEMP, [VK 0; VK 1]); (V_SEND_IMMEDIATE, [VArg])];
  (* 195 *) [(V_LINE_NUMBER_BYTECODE, []); (V_PUSH_SELF, []); (V_SEND, [VK 1; VK 0])];
  (* 196 *) [(V_PUSH_OUTER_TEMP, [VK 0; VK 1]); (V_SEND, [VArg; VK 1])];
  (* 197 *) [(V_PUSH_TEMPORARY_VARIABLE, [VK 4]); (V_SEND_IMMEDIATE, [VArg])];
  (* 198 *) [(V_PUSH_INTEGER, [VArg]); (V_SEND_IMMEDIATE, [VK 41])];
  (* 199 *) [(V_SEND, [VArg; VK 4])];
  (* 200 *) [(V_PUSH_TEMPORARY_VARIABLE, [VArg]); (V_PUSH_TEMPORARY_VARIABLE, [VK 2])];
  (* 201 *) [(V_PUSH_SELF, []); (V_CLASS_SPECIAL, [])];
  (* 202 *) [(V_PUSH_TEMPORARY_VARIABLE, [VK 1]); (V_SEND, [VHi; VLo])];
  (* 203 *) [(V_PUSH_SELF, []); (V_PUSH_TEMPORARY_VARIABLE, [VK 1]); (V_SEND, [VArg; VK 1])];
  (* 204 *) [(V_PUSH_LIT_CONSTANT, [VArg]); (V_SEND, [VK 4; VK 1])];
  (* 205 *) [(V_PUSH_INTEGER, [VArg]); (V_SEND, [VK 0; VK 1])];
  (* 206 *) [(V_PUSH_RECEIVER_VARIABLE, [VArg]); (V_SIZE_SPECIAL, [])];
  (* 207 *) [(V_PUSH_TEMPORARY_VARIABLE, [VK 1]); (V_SEND, [VArg; VK 2])];
  (* 208 *) [(V_PUSH_TEMPORARY_VARIABLE, [VK 0]); (V_PUSH_TEMPORARY_VARIABLE, [VK 1]); (V_SEND, [VArg; VK 2])];
  (* 209 *) [(V_PUSH_TEMPORARY_VARIABLE, [VArg]); (V_POP_INTO_NEW_STACKTOP, [VK 0])];
  (* 210 *) [(V_PUSH_LIT_CONSTANT, [VArg]); (V_MAKE_DIRTY_BLOCK, []); (V_SEND, [VK 5; VK 1])];
  (* 211 *) [(V_SEND_SUPER, [VArg; VK 1])];
  (* 212 *) [(V_PUSH_LIT_CONSTANT, [VArg]); (V_MAKE_DIRTY_BLOCK, []); (V_SEND, [VK 4; VK 1])];
  (* 213 *) [(V_PUSH_RECEIVER_VARIABLE, [VK 1]); (V_SEND_IMMEDIATE, [VArg])];
  (* 214 *) [(V_STORE_OUTER_TEMP, [VArg; VK 1]); (V_RETURN_CONTEXT_STACK_TOP, [])];
  (* 215 *) [(V_POP_STACK_TOP, []); (V_LINE_NUMBER_BYTECODE, []); (V_SEND_IMMEDIATE, [VK 37])];
  (* 216 *) [(V_LINE_NUMBER_BYTECODE, []); (V_PUSH_SELF, []); (V_CLASS_SPECIAL, [])];
  (* 217 *) [(V_PUSH_TEMPORARY_VARIABLE, [VK 1]); (V_SEND, [VArg; VK 0])];
  (* 218 *) [(V_LINE_NUMBER_BYTECODE, []); (V_PUSH_SELF, []); (V_SEND_IMMEDIATE, [VK 130])];
  (* 219 *) [(V_PUSH_RECEIVER_VARIABLE, [VK 0]); (V_SEND_IMMEDIATE, [VArg])];
  (* 220 *) [(V_PUSH_TEMPORARY_VARIABLE, [VK 0]); (V_PUSH_LIT_VARIABLE, [VArg])];
  (* 221 *) [(V_STORE_TEMPORARY_VARIABLE, [VK 0]); (V_LINE_NUMBER_BYTECODE, [])];
  (* 222 *) [(V_PUSH_RECEIVER_VARIABLE, [VK 2]); (V_SEND_IMMEDIATE, [VArg])];
  (* 223 *) [(V_LINE_NUMBER_BYTECODE, []); (V_PUSH_SELF, []); (V_SEND, [VK 2; VK 0])];
  (* 224 *) [(V_LINE_NUMBER_BYTECODE, []); (V_POP_STACK_TOP, []); (V_PUSH_TEMPORARY_VARIABLE, [VK 2])];
  (* 225 *) [(V_PUSH_LIT_CONSTANT, [VArg]); (V_MAKE_DIRTY_BLOCK, []); (V_SEND, [VK 6; VK 1])];
  (* 226 *) [(V_PUSH_SPECIAL, [VArg]); (V_RETURN_METHOD_STACK_TOP, [])];
  (* 227 *) [(V_PUSH_INTEGER, [VArg]); (V_GREATER_EQUAL_SPECIAL, [])];
  (* 228 *) [(V_LINE_NUMBER_BYTECODE, []); (V_POP_STACK_TOP, []); (V_PUSH_RECEIVER_VARIABLE, [VK 1])];
  (* 229 *) [(V_LINE_NUMBER_BYTECODE, []); (V_PUSH_LIT_VARIABLE, [VK 3])];
  (* 230 *) [(V_PUSH_LIT_CONSTANT, [VK 2]); (V_SEND_IMMEDIATE, [VArg])];
  (* 231 *) [(V_SEND_SUPER, [VArg; VK 0])];
  (* 232 *) [(V_PUSH_SPECIAL, [VK 0]); (V_STORE_RECEIVER_VARIABLE, [VArg])];
  (* 233 *) [(V_PUSH_SELF, []); (V_PUSH_TEMPORARY_VARIABLE, [VArg]); (V_SEND, [VK 0; VK 1])];
  (* 234 *) [(V_LINE_NUMBER_BYTECODE, []); (V_POP_STACK_TOP, []); (V_PUSH_TEMPORARY_VARIABLE, [VK 0]); (V_RETURN_CONTEXT_STACK_TOP, [])];
  (* 235 *) [(V_PUSH_LIT_CONSTANT, [VArg]); (V_SAME_OBJECT_SPECIAL, [])];
  (* 236 *) [(V_PUSH_LIT_CONSTANT, [VArg]); (V_MAKE_DIRTY_BLOCK, []); (V_SEND, [VK 1; VK 1])];
  (* 237 *) [(V_LINE_NUMBER_BYTECODE, []); (V_POP_STACK_TOP, []); (V_PUSH_TEMPORARY_VARIABLE, [VK 3])];
  (* 238 *) [(V_POP_STACK_TOP, []); (V_DUP_STACK_TOP, []); (V_SEND_IMMEDIATE, [VArg])];
  (* 239 *) [(V_PUSH_LIT_CONSTANT, [VArg]); (V_PUSH_TEMPORARY_VARIABLE, [VK 0]); (V_AT_PUT_SPECIAL, [])];
  (* 240 *) [(V_DUP_STACK_TOP, []); (V_PUSH_TEMPORARY_VARIABLE, [VArg]); (V_PUSH_INTEGER, [VK 1]); (V_PLUS_SPECIAL, [])];
  (* 241 *) [(V_LINE_NUMBER_BYTECODE, []); (V_PUSH_TEMPORARY_VARIABLE, [VK 4])];
  (* 242 *) [(V_POP_STACK_TOP, []); (V_LINE_NUMBER_BYTECODE, []); (V_PUSH_LIT_VARIABLE, [VK 1])];
  (* 243 *) [(V_DUP_STACK_TOP, []); (V_PUSH_LIT_CONSTANT, [VArg]); (V_SEND, [VK 1; VK 1])];
  (* 244 *) [(V_POP_INTO_NEW_STACKTOP, [VK 1]); (V_SEND, [VArg; VK 1])];
  (* 245 *) [(V_LINE_NUMBER_BYTECODE, []); (V_POP_STACK_TOP, []); (V_PUSH_TEMPORARY_VARIABLE, [VK 1]); (V_RETURN_CONTEXT_STACK_TOP, [])];
  (* 246 *) [(V_STORE_TEMPORARY_VARIABLE, [VK 3]); (V_LINE_NUMBER_BYTECODE, [])];
  (* 247 *) [(V_DUP_STACK_TOP, []); (V_SEND, [VArg; VK 0])];
  (* 248 *) [(V_STORE_RECEIVER_VARIABLE, [VArg]); (V_RETURN_CONTEXT_STACK_TOP, [])];
  (* 249 *) [(V_LINE_NUMBER_BYTECODE, []); (V_PUSH_SELF, []); (V_SEND, [VK 3; VK 0])];
  (* 250 *) [(V_NOT_NIL_SPECIAL, []); (V_DUP_STACK_TOP, []); (V_POP_JUMP_FALSE, [VArg])];
  (* 251 *) [(V_DUP_STACK_TOP, []); (V_PUSH_LIT_CONSTANT, [VArg])];
  (* 252 *) [(V_LINE_NUMBER_BYTECODE, []); (V_PUSH_TEMPORARY_VARIABLE, [VK 0]); (V_RETURN_CONTEXT_STACK_TOP, [])];
  (* 253 *) [(V_PUSH_INTEGER, [VArg]); (V_AT_PUT_SPECIAL, [])];
  (* 254 *) [(V_PUSH_TEMPORARY_VARIABLE, [VArg]); (V_CLASS_SPECIAL, [])];
  (* 255 *) [(V_LINE_NUMBER_BYTECODE, []); (V_PUSH_OUTER_TEMP, [VK 2; VK 1])]].

(** MAX_HASH_VALUE; libgst/superop1.inl:2-6 *)
Definition max_hash_1 : Z := 346.

(** libgst/superop1.inl:8-36 *)
Definition asso_values_1 : list Z := [
  101; 68; 85; 108; 17; 347; 347; 347; 347; 347; 347; 347; 347; 347; 347; 347; 347; 347; 112; 122;
  54; 17; 347; 347; 11; 347; 347; 347; 52; 347; 48; 347; 44; 55; 96; 88; 28; 347; 347; 62;
  79; 347; 91; 7; 88; 84; 86; 123; 81; 347; 347; 104; 66; 347; 69; 347; 123; 347; 347; 347;
  347; 347; 347; 347; 89; 25; 347; 347; 50; 347; 93; 95; 107; 347; 347; 347; 347; 347; 347; 0;
  347; 347; 347; 60; 347; 347; 347; 347; 347; 347; 347; 347; 29; 9; 2; 347; 347; 347; 347; 347;
  347; 4; 347; 347; 347; 347; 347; 347; 24; 347; 347; 347; 347; 347; 347; 347; 347; 116; 347; 347;
  347; 347; 347; 347; 347; 347; 347; 347; 347; 347; 347; 347; 347; 347; 347; 347; 347; 347; 347; 347;
  347; 347; 347; 347; 347; 347; 347; 347; 347; 347; 347; 347; 347; 347; 347; 347; 347; 347; 347; 347;
  347; 347; 347; 347; 347; 347; 347; 347; 347; 347; 347; 347; 347; 347; 347; 347; 347; 347; 347; 347;
  347; 347; 347; 347; 347; 347; 347; 347; 347; 347; 347; 347; 347; 347; 347; 347; 347; 347; 347; 347;
  347; 347; 347; 347; 347; 347; 347; 347; 347; 347; 347; 347; 347; 347; 347; 347; 347; 347; 347; 347;
  347; 347; 347; 347; 347; 347; 347; 347; 347; 347; 347; 347; 347; 347; 347; 347; 347; 347; 347; 347;
  347; 347; 347; 347; 347; 347; 347; 347; 347; 347; 347; 347; 347; 347; 347; 347].

(** libgst/superop1.inl:37-192: the two opcodes, the operand and the
    superoperator, -1 when there is none *)
Definition keylist_1 : list (Z * Z * Z * Z) := [
  (32, 30, 4, 197); (0, 0, 0, -1); (0, 0, 0, -1); (0, 0, 0, -1); (0, 0, 0, -1); (0, 0, 0, -1);
  (0, 0, 0, -1); (0, 0, 0, -1); (0, 0, 0, -1); (0, 0, 0, -1); (0, 0, 0, -1); (0, 0, 0, -1);
  (0, 0, 0, -1); (0, 0, 0, -1); (0, 0, 0, -1); (0, 0, 0, -1); (0, 0, 0, -1); (0, 0, 0, -1);
  (0, 0, 0, -1); (0, 0, 0, -1); (0, 0, 0, -1); (0, 0, 0, -1); (0, 0, 0, -1); (0, 0, 0, -1);
  (0, 0, 0, -1); (0, 0, 0, -1); (0, 0, 0, -1); (0, 0, 0, -1); (0, 0, 0, -1); (0, 0, 0, -1);
  (0, 0, 0, -1); (0, 0, 0, -1); (0, 0, 0, -1); (0, 0, 0, -1); (0, 0, 0, -1); (0, 0, 0, -1);
  (0, 0, 0, -1); (0, 0, 0, -1); (0, 0, 0, -1); (0, 0, 0, -1); (0, 0, 0, -1); (0, 0, 0, -1);
  (0, 0, 0, -1); (0, 0, 0, -1); (0, 0, 0, -1); (0, 0, 0, -1); (0, 0, 0, -1); (0, 0, 0, -1);
  (0, 0, 0, -1); (0, 0, 0, -1); (0, 0, 0, -1); (0, 0, 0, -1); (0, 0, 0, -1); (0, 0, 0, -1);
  (0, 0, 0, -1); (0, 0, 0, -1); (0, 0, 0, -1); (0, 0, 0, -1); (0, 0, 0, -1); (0, 0, 0, -1);
  (0, 0, 0, -1); (0, 0, 0, -1); (0, 0, 0, -1); (0, 0, 0, -1); (0, 0, 0, -1); (0, 0, 0, -1);
  (0, 0, 0, -1); (0, 0, 0, -1); (0, 0, 0, -1); (0, 0, 0, -1); (0, 0, 0, -1); (0, 0, 0, -1);
  (0, 0, 0, -1); (0, 0, 0, -1); (0, 0, 0, -1); (0, 0, 0, -1); (0, 0, 0, -1); (0, 0, 0, -1);
  (0, 0, 0, -1); (0, 0, 0, -1); (0, 0, 0, -1); (0, 0, 0, -1); (0, 0, 0, -1); (0, 0, 0, -1);
  (0, 0, 0, -1); (0, 0, 0, -1); (0, 0, 0, -1); (0, 0, 0, -1); (0, 0, 0, -1); (0, 0, 0, -1);
  (0, 0, 0, -1); (0, 0, 0, -1); (0, 0, 0, -1); (0, 0, 0, -1); (0, 0, 0, -1); (0, 0, 0, -1);
  (0, 0, 0, -1); (0, 0, 0, -1); (0, 0, 0, -1); (0, 0, 0, -1); (0, 0, 0, -1); (0, 0, 0, -1);
  (0, 0, 0, -1); (0, 0, 0, -1); (0, 0, 0, -1); (0, 0, 0, -1); (0, 0, 0, -1); (0, 0, 0, -1);
  (0, 0, 0, -1); (0, 0, 0, -1); (0, 0, 0, -1); (0, 0, 0, -1); (0, 0, 0, -1); (0, 0, 0, -1);
  (0, 0, 0, -1); (0, 0, 0, -1); (0, 0, 0, -1); (0, 0, 0, -1); (0, 0, 0, -1); (24, 43, 0, 93);
  (0, 0, 0, -1); (0, 0, 0, -1); (21, 101, 0, 250); (0, 0, 0, -1); (0, 0, 0, -1); (21, 43, 0, 165);
  (0, 0, 0, -1); (0, 0, 0, -1); (0, 0, 0, -1); (0, 0, 0, -1); (0, 0, 0, -1); (0, 0, 0, -1);
  (0, 0, 0, -1); (0, 0, 0, -1); (0, 0, 0, -1); (0, 0, 0, -1); (0, 0, 0, -1); (32, 65, 1, 217);
  (0, 0, 0, -1); (0, 0, 0, -1); (0, 0, 0, -1); (0, 0, 0, -1); (0, 0, 0, -1); (0, 0, 0, -1);
  (0, 0, 0, -1); (0, 0, 0, -1); (36, 68, 1, 118); (0, 0, 0, -1); (0, 0, 0, -1); (0, 0, 0, -1);
  (0, 0, 0, -1); (0, 0, 0, -1); (0, 0, 0, -1); (0, 0, 0, -1); (32, 65, 2, 160); (0, 0, 0, -1);
  (0, 0, 0, -1); (79, 64, 1, 203); (0, 0, 0, -1); (0, 0, 0, -1); (32, 30, 1, 98); (0, 0, 0, -1);
  (20, 43, 0, 86); (36, 68, 2, 146); (32, 28, 1, 202); (36, 54, 1, 157); (0, 0, 0, -1); (0, 0, 0, -1);
  (0, 0, 0, -1); (52, 94, 0, 243); (32, 65, 0, 97); (33, 30, 1, 194); (0, 0, 0, -1); (0, 0, 0, -1);
  (52, 43, 0, 101); (0, 0, 0, -1); (0, 0, 0, -1); (32, 30, 2, 116); (0, 0, 0, -1); (36, 68, 0, 172);
  (83, 28, 1, 161); (0, 0, 0, -1); (36, 54, 2, 166); (0, 0, 0, -1); (44, 36, 1, 136); (0, 0, 0, -1);
  (36, 68, 3, 167); (0, 0, 0, -1); (0, 0, 0, -1); (32, 32, 0, 83); (79, 64, 0, 154); (52, 108, 0, 240);
  (52, 65, 0, 247); (32, 30, 0, 73); (45, 93, 0, 145); (0, 0, 0, -1); (52, 92, 0, 180); (32, 28, 0, 84);
  (36, 54, 0, 221); (0, 0, 0, -1); (32, 30, 3, 184); (32, 64, 1, 119); (46, 30, 1, 168); (24, 42, 0, 147);
  (35, 30, 1, 213); (36, 54, 3, 246); (0, 0, 0, -1); (32, 71, 1, 207); (0, 0, 0, -1); (70, 30, 1, 183);
  (0, 0, 0, -1); (0, 0, 0, -1); (33, 64, 1, 196); (0, 0, 0, -1); (0, 0, 0, -1); (0, 0, 0, -1);
  (0, 0, 0, -1); (0, 0, 0, -1); (32, 64, 2, 164); (46, 30, 2, 230); (0, 0, 0, -1); (35, 30, 2, 222);
  (0, 0, 0, -1); (83, 71, 1, 208); (0, 0, 0, -1); (0, 0, 0, -1); (48, 32, 0, 123); (0, 0, 0, -1);
  (0, 0, 0, -1); (0, 0, 0, -1); (48, 30, 0, 107); (32, 46, 0, 113); (72, 108, 0, 170); (0, 0, 0, -1);
  (32, 64, 0, 89); (0, 0, 0, -1); (52, 54, 0, 173); (35, 30, 0, 219); (0, 0, 0, -1); (0, 0, 0, -1);
  (32, 71, 0, 190); (32, 34, 0, 220); (0, 0, 0, -1); (0, 0, 0, -1); (0, 0, 0, -1); (0, 0, 0, -1);
  (20, 42, 0, 130); (45, 39, 0, 232); (48, 52, 0, 72); (56, 65, 0, 74); (0, 0, 0, -1); (48, 54, 0, 102);
  (0, 0, 0, -1); (52, 46, 0, 251); (0, 0, 0, -1); (0, 0, 0, -1); (72, 30, 0, 238); (0, 0, 0, -1);
  (52, 42, 0, 114); (0, 0, 0, -1); (0, 0, 0, -1); (48, 40, 0, 134); (0, 0, 0, -1); (0, 0, 0, -1);
  (0, 0, 0, -1); (0, 0, 0, -1); (0, 0, 0, -1); (0, 0, 0, -1); (56, 32, 0, 79); (0, 0, 0, -1);
  (48, 35, 0, 175); (0, 0, 0, -1); (56, 30, 0, 76); (0, 0, 0, -1); (0, 0, 0, -1); (0, 0, 0, -1);
  (56, 28, 0, 105); (72, 54, 0, 96); (48, 34, 0, 135); (0, 0, 0, -1); (47, 64, 1, 244); (0, 0, 0, -1);
  (0, 0, 0, -1); (0, 0, 0, -1); (0, 0, 0, -1); (0, 0, 0, -1); (0, 0, 0, -1); (0, 0, 0, -1);
  (0, 0, 0, -1); (0, 0, 0, -1); (0, 0, 0, -1); (0, 0, 0, -1); (0, 0, 0, -1); (0, 0, 0, -1);
  (0, 0, 0, -1); (0, 0, 0, -1); (0, 0, 0, -1); (0, 0, 0, -1); (0, 0, 0, -1); (0, 0, 0, -1);
  (0, 0, 0, -1); (0, 0, 0, -1); (0, 0, 0, -1); (0, 0, 0, -1); (0, 0, 0, -1); (0, 0, 0, -1);
  (0, 0, 0, -1); (0, 0, 0, -1); (0, 0, 0, -1); (0, 0, 0, -1); (56, 46, 0, 192); (0, 0, 0, -1);
  (0, 0, 0, -1); (56, 64, 0, 171); (0, 0, 0, -1); (0, 0, 0, -1); (0, 0, 0, -1); (0, 0, 0, -1);
  (0, 0, 0, -1); (0, 0, 0, -1); (0, 0, 0, -1); (0, 0, 0, -1); (0, 0, 0, -1); (0, 0, 0, -1);
  (0, 0, 0, -1); (0, 0, 0, -1); (0, 0, 0, -1); (0, 0, 0, -1); (56, 51, 0, 66); (0, 0, 0, -1);
  (0, 0, 0, -1); (0, 0, 0, -1); (0, 0, 0, -1); (0, 0, 0, -1); (0, 0, 0, -1); (0, 0, 0, -1);
  (56, 18, 0, 129); (0, 0, 0, -1); (0, 0, 0, -1); (0, 0, 0, -1); (56, 117, 0, 174); (0, 0, 0, -1);
  (0, 0, 0, -1); (0, 0, 0, -1); (0, 0, 0, -1); (0, 0, 0, -1); (56, 19, 0, 201)].

(** MAX_HASH_VALUE; libgst/superop2.inl:2-6 *)
Definition max_hash_2 : Z := 336.

(** libgst/superop2.inl:8-36 *)
Definition asso_values_2 : list Z := [
  44; 101; 68; 85; 71; 116; 117; 337; 111; 337; 337; 337; 337; 69; 5; 337; 88; 123; 19; 99;
  337; 337; 50; 65; 87; 337; 337; 337; 93; 123; 7; 337; 123; 45; 108; 48; 104; 88; 94; 2;
  3; 104; 337; 337; 91; 63; 64; 59; 4; 17; 86; 52; 337; 337; 89; 81; 121; 337; 337; 337;
  337; 337; 337; 337; 23; 19; 92; 120; 25; 39; 60; 337; 337; 337; 337; 3; 337; 16; 337; 101;
  337; 5; 337; 337; 86; 337; 337; 337; 337; 337; 337; 30; 337; 337; 337; 337; 17; 337; 337; 337;
  112; 337; 34; 337; 337; 337; 337; 337; 337; 337; 337; 337; 337; 337; 337; 337; 337; 337; 337; 337;
  337; 4; 337; 337; 337; 337; 337; 337; 337; 337; 62; 69; 337; 337; 337; 337; 337; 337; 337; 337;
  337; 337; 337; 337; 337; 337; 337; 337; 337; 337; 337; 337; 337; 337; 337; 337; 337; 337; 337; 337;
  337; 337; 337; 337; 337; 337; 337; 337; 337; 337; 337; 337; 337; 337; 337; 337; 337; 337; 337; 337;
  337; 337; 337; 337; 337; 337; 337; 337; 337; 337; 337; 337; 337; 337; 337; 337; 337; 337; 337; 337;
  337; 337; 337; 337; 337; 337; 337; 337; 337; 337; 337; 337; 337; 337; 337; 337; 337; 337; 337; 337;
  337; 337; 337; 337; 337; 337; 337; 337; 337; 337; 337; 337; 337; 337; 337; 337; 337; 337; 337; 337;
  337; 337; 337; 337; 337; 337; 337; 337; 337; 337; 337; 337; 337; 337; 337; 337].

(** libgst/superop2.inl:37-223: the two opcodes, the operand and the
    superoperator, -1 when there is none *)
Definition keylist_2 : list (Z * Z * Z * Z) := [
  (39, 48, 0, 120); (0, 0, 0, -1); (0, 0, 0, -1); (0, 0, 0, -1); (0, 0, 0, -1); (0, 0, 0, -1);
  (0, 0, 0, -1); (0, 0, 0, -1); (0, 0, 0, -1); (0, 0, 0, -1); (0, 0, 0, -1); (0, 0, 0, -1);
  (0, 0, 0, -1); (0, 0, 0, -1); (0, 0, 0, -1); (0, 0, 0, -1); (0, 0, 0, -1); (0, 0, 0, -1);
  (0, 0, 0, -1); (0, 0, 0, -1); (0, 0, 0, -1); (0, 0, 0, -1); (0, 0, 0, -1); (0, 0, 0, -1);
  (0, 0, 0, -1); (0, 0, 0, -1); (0, 0, 0, -1); (0, 0, 0, -1); (0, 0, 0, -1); (0, 0, 0, -1);
  (0, 0, 0, -1); (0, 0, 0, -1); (0, 0, 0, -1); (0, 0, 0, -1); (0, 0, 0, -1); (0, 0, 0, -1);
  (0, 0, 0, -1); (0, 0, 0, -1); (0, 0, 0, -1); (0, 0, 0, -1); (0, 0, 0, -1); (0, 0, 0, -1);
  (0, 0, 0, -1); (0, 0, 0, -1); (0, 0, 0, -1); (0, 0, 0, -1); (0, 0, 0, -1); (0, 0, 0, -1);
  (0, 0, 0, -1); (0, 0, 0, -1); (0, 0, 0, -1); (0, 0, 0, -1); (0, 0, 0, -1); (0, 0, 0, -1);
  (0, 0, 0, -1); (0, 0, 0, -1); (0, 0, 0, -1); (0, 0, 0, -1); (0, 0, 0, -1); (0, 0, 0, -1);
  (0, 0, 0, -1); (0, 0, 0, -1); (0, 0, 0, -1); (0, 0, 0, -1); (0, 0, 0, -1); (0, 0, 0, -1);
  (0, 0, 0, -1); (0, 0, 0, -1); (0, 0, 0, -1); (0, 0, 0, -1); (0, 0, 0, -1); (0, 0, 0, -1);
  (0, 0, 0, -1); (0, 0, 0, -1); (0, 0, 0, -1); (0, 0, 0, -1); (0, 0, 0, -1); (0, 0, 0, -1);
  (0, 0, 0, -1); (0, 0, 0, -1); (0, 0, 0, -1); (0, 0, 0, -1); (0, 0, 0, -1); (0, 0, 0, -1);
  (0, 0, 0, -1); (0, 0, 0, -1); (0, 0, 0, -1); (0, 0, 0, -1); (46, 30, 49, 117); (0, 0, 0, -1);
  (0, 0, 0, -1); (0, 0, 0, -1); (0, 0, 0, -1); (0, 0, 0, -1); (0, 0, 0, -1); (0, 0, 0, -1);
  (0, 0, 0, -1); (0, 0, 0, -1); (39, 51, 0, 248); (68, 91, 0, 234); (121, 51, 0, 214); (0, 0, 0, -1);
  (0, 0, 0, -1); (0, 0, 0, -1); (0, 0, 0, -1); (0, 0, 0, -1); (0, 0, 0, -1); (0, 0, 0, -1);
  (0, 0, 0, -1); (0, 0, 0, -1); (0, 0, 0, -1); (35, 18, 0, 206); (0, 0, 0, -1); (0, 0, 0, -1);
  (0, 0, 0, -1); (44, 30, 96, 122); (0, 0, 0, -1); (0, 0, 0, -1); (0, 0, 0, -1); (0, 0, 0, -1);
  (0, 0, 0, -1); (0, 0, 0, -1); (0, 0, 0, -1); (0, 0, 0, -1); (0, 0, 0, -1); (46, 49, 0, 70);
  (0, 0, 0, -1); (0, 0, 0, -1); (0, 0, 0, -1); (102, 30, 37, 215); (67, 30, 40, 155); (0, 0, 0, -1);
  (0, 0, 0, -1); (0, 0, 0, -1); (0, 0, 0, -1); (69, 51, 0, 252); (54, 75, 0, 185); (54, 48, 0, 68);
  (39, 66, 0, 80); (0, 0, 0, -1); (44, 14, 0, 159); (0, 0, 0, -1); (0, 0, 0, -1); (0, 0, 0, -1);
  (35, 51, 0, 124); (0, 0, 0, -1); (0, 0, 0, -1); (0, 0, 0, -1); (0, 0, 0, -1); (0, 0, 0, -1);
  (0, 0, 0, -1); (70, 64, 2, 187); (36, 48, 0, 78); (0, 0, 0, -1); (70, 64, 4, 212); (46, 64, 2, 137);
  (68, 91, 1, 245); (0, 0, 0, -1); (46, 64, 4, 204); (45, 51, 0, 75); (46, 51, 0, 128); (0, 0, 0, -1);
  (0, 0, 0, -1); (0, 0, 0, -1); (0, 0, 0, -1); (46, 30, 38, 110); (0, 0, 0, -1); (0, 0, 0, -1);
  (70, 64, 3, 178); (0, 0, 0, -1); (0, 0, 0, -1); (0, 0, 0, -1); (46, 64, 3, 144); (54, 77, 2, 255);
  (68, 35, 1, 228); (46, 30, 36, 92); (69, 28, 0, 158); (46, 131, 0, 239); (0, 0, 0, -1); (44, 0, 0, 81);
  (0, 0, 0, -1); (54, 35, 0, 109); (0, 0, 0, -1); (0, 0, 0, -1); (70, 64, 1, 236); (35, 28, 0, 140);
  (32, 18, 0, 104); (44, 51, 0, 189); (46, 64, 1, 94); (67, 30, 130, 218); (68, 56, 0, 95); (0, 0, 0, -1);
  (68, 32, 0, 126); (45, 50, 0, 226); (55, 33, 2, 152); (46, 24, 0, 235); (0, 0, 0, -1); (54, 46, 0, 179);
  (0, 0, 0, -1); (70, 64, 5, 210); (70, 64, 6, 225); (0, 0, 0, -1); (44, 30, 41, 198); (44, 2, 0, 150);
  (44, 13, 0, 182); (54, 35, 2, 149); (54, 77, 1, 181); (67, 65, 2, 223); (54, 35, 4, 193); (0, 0, 0, -1);
  (0, 0, 0, -1); (32, 0, 0, 133); (0, 0, 0, -1); (67, 30, 84, 176); (0, 0, 0, -1); (0, 0, 0, -1);
  (68, 32, 2, 224); (32, 22, 0, 142); (55, 28, 0, 65); (32, 51, 0, 91); (44, 3, 0, 141); (44, 30, 32, 103);
  (54, 35, 3, 163); (44, 16, 0, 111); (67, 65, 3, 249); (46, 6, 0, 99); (32, 47, 0, 209); (55, 33, 1, 77);
  (67, 46, 0, 127); (32, 81, 1, 108); (0, 0, 0, -1); (46, 17, 0, 151); (32, 23, 0, 188); (68, 32, 3, 237);
  (0, 0, 0, -1); (54, 33, 1, 139); (44, 1, 0, 100); (0, 0, 0, -1); (54, 35, 1, 112); (0, 0, 0, -1);
  (67, 65, 1, 195); (54, 34, 0, 82); (55, 28, 2, 71); (102, 34, 1, 242); (0, 0, 0, -1); (55, 28, 4, 199);
  (44, 8, 0, 148); (0, 0, 0, -1); (55, 29, 0, 231); (68, 32, 1, 125); (0, 0, 0, -1); (44, 5, 0, 227);
  (44, 6, 0, 87); (54, 35, 5, 186); (54, 56, 0, 67); (32, 16, 0, 115); (54, 32, 0, 69); (67, 28, 0, 90);
  (44, 17, 0, 253); (55, 28, 3, 88); (0, 0, 0, -1); (0, 0, 0, -1); (0, 0, 0, -1); (67, 19, 0, 216);
  (0, 0, 0, -1); (54, 34, 2, 177); (32, 19, 0, 254); (0, 0, 0, -1); (32, 1, 0, 143); (0, 0, 0, -1);
  (55, 37, 1, 121); (0, 0, 0, -1); (0, 0, 0, -1); (0, 0, 0, -1); (0, 0, 0, -1); (55, 28, 1, 64);
  (0, 0, 0, -1); (0, 0, 0, -1); (0, 0, 0, -1); (0, 0, 0, -1); (54, 32, 2, 106); (0, 0, 0, -1);
  (54, 34, 3, 229); (54, 32, 4, 241); (32, 6, 0, 169); (44, 28, 1, 205); (0, 0, 0, -1); (67, 32, 0, 162);
  (0, 0, 0, -1); (0, 0, 0, -1); (32, 17, 0, 131); (0, 0, 0, -1); (0, 0, 0, -1); (0, 0, 0, -1);
  (0, 0, 0, -1); (79, 28, 1, 233); (0, 0, 0, -1); (54, 32, 3, 138); (54, 34, 1, 132); (0, 0, 0, -1);
  (0, 0, 0, -1); (0, 0, 0, -1); (0, 0, 0, -1); (0, 0, 0, -1); (0, 0, 0, -1); (55, 29, 1, 211);
  (0, 0, 0, -1); (67, 84, 1, 153); (0, 0, 0, -1); (0, 0, 0, -1); (0, 0, 0, -1); (0, 0, 0, -1);
  (0, 0, 0, -1); (54, 32, 1, 85); (32, 32, 2, 200); (0, 0, 0, -1); (0, 0, 0, -1); (0, 0, 0, -1);
  (0, 0, 0, -1); (0, 0, 0, -1); (0, 0, 0, -1); (0, 0, 0, -1); (0, 0, 0, -1); (0, 0, 0, -1);
  (0, 0, 0, -1); (0, 0, 0, -1); (0, 0, 0, -1); (0, 0, 0, -1); (0, 0, 0, -1); (0, 0, 0, -1);
  (0, 0, 0, -1); (32, 32, 3, 156); (0, 0, 0, -1); (0, 0, 0, -1); (0, 0, 0, -1); (0, 0, 0, -1);
  (32, 100, 1, 191)].
