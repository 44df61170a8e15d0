(** The compiler of methods: from parse trees to bytecodes (libgst/comp.c), before
    they are optimised (the optimiser is modelled in Bc.v), and the interpreter
    of what it emits (libgst/vm.def).

    Modelled: variables, constants, messages, cascades, assignments, statements,
    messages to super, and all the messages that are compiled in line:
    conditionals, loops, and: and or:.  Blocks are modelled where they are
    compiled in line; other blocks, array constructors {...}, compile-time
    constants ##(...), thisContext, scoped variables A.B, method attributes and
    the undeclared variables of immediate statements are not: the model refuses
    them. *)
From Coq Require Import ZArith List Bool String.
From Verif Require Import Base Bc.
Import ListNotations.
Local Open Scope string_scope.
Local Open Scope list_scope.
Local Open Scope Z_scope.

(** * Parse trees *)

(** constants; libgst/tree.h:119-156.  A SmallInteger, a symbol, or another
    literal object, numbered *)
Inductive const := KInt (z : Z) | KSym (s : string) | KObj (n : nat).

(** expressions, libgst/tree.h:90-117, 180-207, each with the line where it starts.  A
    cascade holds all its messages, the first included
    (libgst/comp.c:1896-1904) *)
Inductive expr :=
| EVar (ln : Z) (x : string)
| ELit (ln : Z) (k : const)
| EBlock (ln : Z) (params temps : list string) (body : stmts)
| ESend (ln : Z) (r : expr) (s : string) (args : exprs)
| ECascade (ln : Z) (r : expr) (ms : msgs)
| EAssign (ln : Z) (targets : list (Z * string)) (e : expr)
with exprs := ENil | ECons (e : expr) (es : exprs)
with msgs := MNil | MCons (ln : Z) (s : string) (args : exprs) (ms : msgs)
with stmts := SNil | SExpr (e : expr) (ss : stmts) | SReturn (e : expr).

(** a method: its line, its arguments, temporaries and statements;
    libgst/tree.h:165-178 *)
Record meth := Meth {
  m_line : Z;
  m_params : list string;
  m_temps : list string;
  m_body : stmts
}.

(** * Bytecodes *)

(** the opcodes that the compiler emits; libgst/byte.h:59-120 *)
Definition bc_plus : Z := 0.
Definition bc_minus : Z := 1.
Definition bc_less_equal : Z := 4.
Definition bc_greater_equal : Z := 5.
Definition bc_send : Z := 28.
Definition bc_send_super : Z := 29.
Definition bc_send_immediate : Z := 30.
Definition bc_send_super_immediate : Z := 31.
Definition bc_push_temp : Z := 32.
Definition bc_push_lit_variable : Z := 34.
Definition bc_push_receiver_variable : Z := 35.
Definition bc_store_temp : Z := 36.
Definition bc_store_lit_variable : Z := 38.
Definition bc_store_receiver_variable : Z := 39.
Definition bc_jump_back : Z := 40.
Definition bc_jump : Z := 41.
Definition bc_pop_jump_true : Z := 42.
Definition bc_pop_jump_false : Z := 43.
Definition bc_push_integer : Z := 44.
Definition bc_push_special : Z := 45.
Definition bc_push_lit_constant : Z := 46.
Definition bc_pop : Z := 48.
Definition bc_return : Z := 51.
Definition bc_dup : Z := 52.
Definition bc_line : Z := 54.
Definition bc_push_self : Z := 56.

(** NIL_INDEX, TRUE_INDEX and FALSE_INDEX; libgst/byte.h:122-124 *)
Definition nil_index : Z := 0.
Definition true_index : Z := 1.
Definition false_index : Z := 2.

(** what is emitted is a list of bytecodes with their arguments; in memory each
    is a sequence of pairs of bytes, compile_byte, libgst/byte.c:92-118 *)
Definition flat (is : list (Z * Z)) : list (Z * Z) :=
  flat_map (fun i => compile_byte (fst i) (snd i)) is.

(** the selectors with a bytecode of their own, below 32, or a number for
    SEND_IMMEDIATE; the number of their arguments is in the table;
    libgst/builtins.gperf:39-289, libgst/byte.h:59-89 *)
Definition builtins : list (string * nat * Z) :=
  [
   ("+", 1%nat, 0); ("-", 1%nat, 1); ("<", 1%nat, 2);
   (">", 1%nat, 3); ("<=", 1%nat, 4); (">=", 1%nat, 5);
   ("=", 1%nat, 6); ("~=", 1%nat, 7); ("*", 1%nat, 8);
   ("/", 1%nat, 9); ("\\", 1%nat, 10); ("bitXor:", 1%nat, 11);
   ("bitShift:", 1%nat, 12); ("//", 1%nat, 13); ("bitAnd:", 1%nat, 14);
   ("bitOr:", 1%nat, 15); ("at:", 1%nat, 16); ("at:put:", 2%nat, 17);
   ("size", 0%nat, 18); ("class", 0%nat, 19); ("isNil", 0%nat, 20);
   ("notNil", 0%nat, 21); ("value", 0%nat, 22); ("value:", 1%nat, 23);
   ("==", 1%nat, 24); ("javaAsInt", 0%nat, 25); ("javaAsLong", 0%nat, 26);
   ("new:", 1%nat, 32); ("thisContext", 0%nat, 33); ("callInto:", 1%nat, 34);
   ("narrow", 0%nat, 35); ("nextPutAll:", 1%nat, 36); ("yourself", 0%nat, 37);
   (",", 1%nat, 38); ("on:", 1%nat, 39); ("subclassResponsibility", 0%nat, 40);
   ("add:", 1%nat, 41); ("nl", 0%nat, 42); ("printString", 0%nat, 43);
   ("contents", 0%nat, 44); ("name", 0%nat, 45); ("isEmpty", 0%nat, 46);
   ("properties", 0%nat, 47); ("container", 0%nat, 48); ("error:", 1%nat, 49);
   ("first", 0%nat, 50); ("tclEval:", 1%nat, 51); ("collect:", 1%nat, 52);
   ("tclResult", 0%nat, 53); ("key", 0%nat, 54); ("asTkString", 0%nat, 55);
   ("abs", 0%nat, 56); ("basicNew", 0%nat, 57); ("negated", 0%nat, 58);
   ("not", 0%nat, 59); ("close", 0%nat, 60); ("includes:", 1%nat, 61);
   ("at:ifAbsent:", 2%nat, 62); ("asSymbol", 0%nat, 63); ("with:", 1%nat, 64);
   ("copy", 0%nat, 65); ("copyFrom:to:", 2%nat, 66); ("print:", 1%nat, 67);
   ("last", 0%nat, 68); ("initialize", 0%nat, 69); ("tclEval:with:with:", 3%nat, 70);
   ("assert:", 1%nat, 71); ("primitiveFailed", 0%nat, 72); ("initialize:", 1%nat, 73);
   ("asString", 0%nat, 74); ("cr", 0%nat, 75); ("should:", 1%nat, 76);
   ("arguments", 0%nat, 77); ("x", 0%nat, 78); ("readStream", 0%nat, 79);
   ("y", 0%nat, 80); ("tclEval:with:with:with:", 4%nat, 81); ("asInteger", 0%nat, 82);
   ("space", 0%nat, 83); ("new", 0%nat, 84); ("shouldNotImplement", 0%nat, 85);
   ("->", 1%nat, 86); ("numArgs", 0%nat, 87); ("with:with:", 2%nat, 88);
   ("species", 0%nat, 89); ("blox", 0%nat, 90); ("step", 0%nat, 91);
   ("signal", 0%nat, 92); ("parent", 0%nat, 93); ("selector", 0%nat, 94);
   ("at:ifPresent:", 2%nat, 95); ("to:", 1%nat, 96); ("addLast:", 1%nat, 97);
   ("squared", 0%nat, 98); ("generality", 0%nat, 99); ("signalOn:mustBe:", 2%nat, 100);
   ("ensure:", 1%nat, 101); ("body", 0%nat, 102); ("max:", 1%nat, 103);
   ("keysAndValuesDo:", 1%nat, 104); ("printOn:", 1%nat, 105); ("isKindOf:", 1%nat, 106);
   ("visitNode:", 1%nat, 107); ("addAll:", 1%nat, 108); ("isInteger", 0%nat, 109);
   ("name:", 1%nat, 110); ("hash", 0%nat, 111); ("sqrt", 0%nat, 112);
   ("beep", 0%nat, 113); ("primAt:", 1%nat, 114); ("environment", 0%nat, 115);
   ("position", 0%nat, 116); ("at:ifAbsentPut:", 2%nat, 117); ("signal:", 1%nat, 118);
   ("postCopy", 0%nat, 119); ("readFrom:", 1%nat, 120); ("coefficients:", 1%nat, 121);
   ("clientPI", 0%nat, 122); ("flush", 0%nat, 123); ("value:value:", 2%nat, 124);
   ("asFloatD", 0%nat, 125); ("on:do:", 2%nat, 126); ("basicAt:put:", 2%nat, 127);
   ("primSize", 0%nat, 128); ("evaluate", 0%nat, 129); ("connected", 0%nat, 130);
   ("reset", 0%nat, 131); ("copyEmpty:", 1%nat, 132); ("start", 0%nat, 133);
   ("signalOn:", 1%nat, 134); ("basicAt:", 1%nat, 135); ("asClass", 0%nat, 136);
   ("ln", 0%nat, 137); ("implementation", 0%nat, 138); ("checkResponse", 0%nat, 139);
   ("average", 0%nat, 140); ("upTo:", 1%nat, 141); ("receiver", 0%nat, 142);
   ("peek", 0%nat, 143); ("basicSize", 0%nat, 144); ("x:y:", 2%nat, 145);
   ("foregroundColor:", 1%nat, 146); ("rows:", 1%nat, 147); ("text", 0%nat, 148);
   ("exp", 0%nat, 149); ("statements", 0%nat, 150); ("body:", 1%nat, 151);
   ("|", 1%nat, 152); ("sizeof", 0%nat, 153); ("includesKey:", 1%nat, 154);
   ("pi", 0%nat, 155); ("completedSuccessfully", 0%nat, 156); ("writeStream", 0%nat, 157);
   ("superclass", 0%nat, 158); ("arguments:", 1%nat, 159); ("state", 0%nat, 160);
   ("truncated", 0%nat, 161); ("inject:into:", 2%nat, 162); ("replaceFrom:to:with:startingAt:", 4%nat, 163);
   ("current", 0%nat, 164); ("between:and:", 2%nat, 165); ("retryRelationalOp:coercing:", 2%nat, 166);
   ("connectIfClosed", 0%nat, 167); ("detect:ifNone:", 2%nat, 168); ("checkError", 0%nat, 169);
   ("executeAndWait:arguments:", 2%nat, 170); ("min:", 1%nat, 171); ("width", 0%nat, 172);
   ("parentContext", 0%nat, 173); ("removeLast", 0%nat, 174); ("zero", 0%nat, 175);
   ("bindWith:with:", 2%nat, 176); ("temporaries", 0%nat, 177); ("asOop", 0%nat, 178);
   ("width:height:", 2%nat, 179); ("methodDictionary", 0%nat, 180); ("accumulate:", 1%nat, 181);
   ("count", 0%nat, 182); ("asLowercase", 0%nat, 183); ("asArray", 0%nat, 184);
   ("exists", 0%nat, 185); ("signalOn:what:", 2%nat, 186); ("select:", 1%nat, 187);
   ("parent:", 1%nat, 188); ("selector:", 1%nat, 189); ("signalOn:withIndex:", 2%nat, 190);
   ("bind:to:of:parameters:", 4%nat, 191); ("return:", 1%nat, 192); ("~~", 1%nat, 193);
   ("changeState:", 1%nat, 194); ("sign", 0%nat, 195); ("variance", 0%nat, 196);
   ("asVector", 0%nat, 197); ("getResponse", 0%nat, 198); ("wait", 0%nat, 199);
   ("instanceClass", 0%nat, 200); ("asOrderedCollection", 0%nat, 201); ("keys", 0%nat, 202);
   ("asFloat", 0%nat, 203); ("random", 0%nat, 204); ("origin", 0%nat, 205);
   ("superspace", 0%nat, 206); ("stop", 0%nat, 207); ("perform:", 1%nat, 208);
   ("backgroundColor:", 1%nat, 209); ("login", 0%nat, 210); ("data:", 1%nat, 211);
   ("nextToken", 0%nat, 212); ("primAt:put:", 2%nat, 213); ("method", 0%nat, 214);
   ("allSatisfy:", 1%nat, 215); ("position:", 1%nat, 216); ("default", 0%nat, 217);
   ("atAllPut:", 1%nat, 218); ("asSortedCollection", 0%nat, 219); ("invalidArgsError:", 1%nat, 220);
   ("nameIn:", 1%nat, 221); ("allSubclassesDo:", 1%nat, 222); ("signalError", 0%nat, 223);
   ("height", 0%nat, 224); ("source", 0%nat, 225); ("asNumber", 0%nat, 226);
   ("primitive", 0%nat, 227); ("store:", 1%nat, 228); ("updateViews", 0%nat, 229);
   ("errorContents:", 1%nat, 230); ("displayString", 0%nat, 231); ("skipSeparators", 0%nat, 232);
   ("origin:corner:", 2%nat, 233); ("activeProcess", 0%nat, 234); ("bindWith:", 1%nat, 235);
   ("beConsistent", 0%nat, 236); ("at:type:", 2%nat, 237); ("skip:", 1%nat, 238);
   ("days", 0%nat, 239); ("tclEval:with:", 2%nat, 240); ("fromSeconds:", 1%nat, 241);
   ("&", 1%nat, 242); ("upToEnd", 0%nat, 243); ("variable", 0%nat, 244);
   ("become:", 1%nat, 245); ("with:do:", 2%nat, 246); ("findIndexOrNil:", 1%nat, 247);
   ("asSeconds", 0%nat, 248); ("copyWith:", 1%nat, 249); ("background", 0%nat, 250);
   ("status", 0%nat, 251); ("selectors:receiver:argument:", 3%nat, 252); ("create:", 1%nat, 253);
   ("coerce:", 1%nat, 254); ("bytecodeAt:", 1%nat, 255)
  ].

(** _gst_lookup_builtin_selector, generated by gperf;
    libgst/builtins.gperf:8 *)
Definition builtin_code (s : string) : option Z :=
  match find (fun r => String.eqb (fst (fst r)) s) builtins with
  | Some r => Some (snd r)
  | None => None
  end.

(** the same table indexed by code; libgst/sym.c:1579, 1644 *)
Definition builtin_of (c : Z) : option (string * nat) :=
  match find (fun r => snd r =? c) builtins with
  | Some r => Some (fst r)
  | None => None
  end.

(** * The state of the compiler *)

(** an object in the literal vector: a constant, the class whose methods a
    message to super runs, or the association of a global variable;
    libgst/comp.c:2434-2461 *)
Inductive lit := LInt (z : Z) | LSym (s : string) | LObj (n : nat) | LClass
               | LVar (g : string).

(** identity of literals; libgst/comp.c:2457 *)
Definition lit_eqb (a b : lit) : bool :=
  match a, b with
  | LInt x, LInt y => x =? y
  | LSym x, LSym y => String.eqb x y
  | LObj x, LObj y => Nat.eqb x y
  | LClass, LClass => true
  | LVar x, LVar y => String.eqb x y
  | _, _ => false
  end.

(** the object of a constant; _gst_make_constant_oop, libgst/comp.c:2143-2283 *)
Definition lit_of (k : const) : lit :=
  match k with KInt z => LInt z | KSym s => LSym s | KObj n => LObj n end.

(** what the compiler knows of the class: the names of the instance variables
    (libgst/sym.c:1018-1033), the global variables (libgst/sym.c:1005-1010), and
    whether the class has a superclass (libgst/comp.c:1415-1421) *)
Record ctx := Ctx {
  c_ivars : list string;
  c_global : string -> bool;
  c_super : bool
}.

(** _gst_compiler_state: the literals, the symbols in scope, the latest first,
    with their index and whether they are read-only (libgst/sym.c:66-86), the
    number of arguments and of temporaries, and the numbers of lines
    (libgst/comp.h:228-241, libgst/byte.c:90) *)
Record cst := Cst {
  s_lits : list lit;
  s_syms : list (string * nat * bool);
  s_args : nat;
  s_temps : nat;
  s_prev : Z;
  s_next : Z;
  s_offset : Z
}.

(** a vector of bytecodes and its effect on the depth of the stack since it was
    started: the net effect, the maximum, and the least depth that a
    SUB_STACK_DEPTH has left; libgst/byte.h:142-173 *)
Record vec := Vec { v_is : list (Z * Z); v_net : Z; v_max : Z; v_low : Z }.

(** the empty vector; libgst/byte.c:459-473 *)
Definition vec0 : vec := Vec [] 0 0 0.

(** emission of one after the other; libgst/byte.h:154-173 *)
Definition vapp (a b : vec) : vec :=
  Vec (v_is a ++ v_is b) (v_net a + v_net b)
      (Z.max (v_max a) (v_net a + v_max b))
      (Z.min (v_low a) (v_net a + v_low b)).

(** _gst_bytecode_length, in bytes; libgst/byte.c:224-231 *)
Definition vlen (v : vec) : Z := 2 * Z.of_nat (List.length (flat (v_is v))).

(** a part of the compiler: what it emits and how it leaves the state.  Err is
    EXIT_COMPILATION, libgst/comp.c:393-394, and Abort a failed assertion *)
Definition comp := cst -> outcome (vec * cst).

(** sequence.  Vocabulary, not code *)
Definition andthen (a b : comp) : comp := fun s =>
  olet r := a s in
  olet q := b (snd r) in
  Ok (vapp (fst r) (fst q), snd q).
Infix ";;" := andthen (at level 61, left associativity).

(** nothing.  Vocabulary, not code *)
Definition skip : comp := fun s => Ok (vec0, s).

(** EXIT_COMPILATION; libgst/comp.c:393-394 *)
Definition refuse : comp := fun _ => Err.

(** changes of the state.  Vocabulary, not code *)
Definition with_next (s : cst) (prev next : Z) : cst :=
  Cst (s_lits s) (s_syms s) (s_args s) (s_temps s) prev next (s_offset s).
Definition with_lits (s : cst) (l : list lit) : cst :=
  Cst l (s_syms s) (s_args s) (s_temps s) (s_prev s) (s_next s) (s_offset s).
Definition with_syms (s : cst) (l : list (string * nat * bool)) (temps : nat) : cst :=
  Cst (s_lits s) l (s_args s) temps (s_prev s) (s_next s) (s_offset s).

(** _gst_line_number without LN_RESET; libgst/byte.c:120-124, 139-156 *)
Definition line (n : Z) : comp := fun s =>
  let n := if n >? 65535 then 65535 else n in
  if n =? -1 then Ok (vec0, with_next s (-1) (-1))
  else if n >? s_offset s then
    if negb (n =? s_prev s) then Ok (vec0, with_next s n (n - s_offset s))
    else Ok (vec0, s)
  else Abort.

(** _gst_compile_byte; libgst/byte.c:159-170.  Line numbers are not omitted *)
Definition emit (b a : Z) : comp := fun s =>
  if s_next s =? -1 then Ok (Vec [(b, a)] 0 0 0, s)
  else Ok (Vec [(bc_line, s_next s); (b, a)] 0 0 0, with_next s (s_prev s) (-1)).

(** INCR_STACK_DEPTH and SUB_STACK_DEPTH; libgst/byte.h:154-173 *)
Definition incr : comp := fun s => Ok (Vec [] 1 1 0, s).
Definition sub (n : Z) : comp := fun s => Ok (Vec [] (- n) 0 (- n), s).

(** _gst_compile_and_free_bytecodes; libgst/byte.c:182-192.  The bytecodes were
    compiled into a vector of their own *)
Definition splice (v : vec) : comp := fun s =>
  Ok (Vec (v_is v) (v_net v) (v_max v) (v_net v), s).

(** _gst_save_bytecode_array ... _gst_get_bytecodes: compile into a new vector
    and go on with it; libgst/byte.c:194-222.  A failed assertion of
    SUB_STACK_DEPTH is found here *)
Definition apart (c : comp) (k : vec -> comp) : comp := fun s =>
  olet r := c s in
  if v_low (fst r) <? 0 then Abort else k (fst r) (snd r).

(** * Variables *)

(** find_local_var; libgst/sym.c:1036-1046 *)
Fixpoint find_local (x : string) (l : list (string * nat * bool)) : option (nat * bool) :=
  match l with
  | [] => None
  | (y, i, ro) :: l' => if String.eqb x y then Some (i, ro) else find_local x l'
  end.

(** instance_variable_index: the last of the name; libgst/sym.c:1018-1033 *)
Fixpoint ivar_index (x : string) (l : list string) : option nat :=
  match l with
  | [] => None
  | y :: l' =>
    match ivar_index x l' with
    | Some i => Some (S i)
    | None => if String.eqb x y then Some 0%nat else None
    end
  end.

(** symbol_entry; libgst/sym.h:78-92 *)
Inductive entry :=
| InSpecial (n : Z) | InSelf | InTemp (i : nat) (ro : bool) | InReceiver (i : nat)
| InGlobal (g : string).

(** _gst_find_variable; libgst/sym.c:941-1016.  thisContext is refused *)
Definition find_variable (c : ctx) (s : cst) (x : string) : option entry :=
  if String.eqb x "self" || String.eqb x "super" then Some InSelf
  else if String.eqb x "true" then Some (InSpecial true_index)
  else if String.eqb x "false" then Some (InSpecial false_index)
  else if String.eqb x "nil" then Some (InSpecial nil_index)
  else if String.eqb x "thisContext" then None
  else match find_local x (s_syms s) with
       | Some (i, ro) => Some (InTemp i ro)
       | None =>
         match ivar_index x (c_ivars c) with
         | Some i => Some (InReceiver i)
         | None => if c_global c x then Some (InGlobal x) else None
         end
       end.

(** the search of the literal vector; libgst/comp.c:1076-1082, 2454-2458 *)
Fixpoint lit_index (l : lit) (ls : list lit) : option nat :=
  match ls with
  | [] => None
  | m :: ls' => if lit_eqb l m then Some 0%nat
                else match lit_index l ls' with
                     | Some i => Some (S i)
                     | None => None
                     end
  end.

(** _gst_add_forced_object; libgst/comp.c:2449-2461 *)
Definition add_literal (l : lit) (k : Z -> comp) : comp := fun s =>
  match lit_index l (s_lits s) with
  | Some i => k (Z.of_nat i) s
  | None => k (Z.of_nat (List.length (s_lits s))) (with_lits s (s_lits s ++ [l]))
  end.

(** compile_variable; libgst/comp.c:998-1064 *)
Definition compile_variable (c : ctx) (x : string) : comp :=
  incr ;;
  (fun s =>
     match find_variable c s x with
     | None => Err
     | Some InSelf => emit bc_push_self 0 s
     | Some (InSpecial n) => emit bc_push_special n s
     | Some (InTemp i _) => emit bc_push_temp (Z.of_nat i) s
     | Some (InReceiver i) => emit bc_push_receiver_variable (Z.of_nat i) s
     | Some (InGlobal g) => add_literal (LVar g) (emit bc_push_lit_variable) s
     end).

(** compile_constant; libgst/comp.c:1066-1105 *)
Definition compile_constant (l : lit) : comp := fun s =>
  let push := match l with
              | LInt z => if (0 <=? z) && (z <=? 0x7FFFFFFF)
                          then match lit_index l (s_lits s) with
                               | None => Some z
                               | Some _ => None
                               end
                          else None
              | _ => None
              end in
  match push with
  | Some z => (incr ;; emit bc_push_integer z) s
  | None => add_literal l (fun i => incr ;; emit bc_push_lit_constant i) s
  end.

(** compile_assignments; libgst/comp.c:1916-1978 *)
Fixpoint compile_assignments (c : ctx) (ts : list (Z * string)) : comp :=
  match ts with
  | [] => skip
  | (ln, x) :: ts' =>
    line ln ;;
    (fun s =>
       match find_variable c s x with
       | None | Some InSelf | Some (InSpecial _) | Some (InTemp _ true) => Err
       | Some (InTemp i false) => emit bc_store_temp (Z.of_nat i) s
       | Some (InReceiver i) => emit bc_store_receiver_variable (Z.of_nat i) s
       | Some (InGlobal g) =>
         add_literal (LVar g) (fun i =>
           emit bc_store_lit_variable i ;; emit bc_pop 0 ;;
           emit bc_push_lit_variable i) s
       end) ;;
    compile_assignments c ts'
  end.

(** * Messages *)

(** compile_send; libgst/comp.c:1404-1437.  The class of a message to super is
    pushed as a constant *)
Definition compile_send (c : ctx) (super : bool) (s : string) (nargs : Z) : comp :=
  (if super then if c_super c then compile_constant LClass else refuse else skip) ;;
  match builtin_code s with
  | None => add_literal (LSym s) (fun i =>
      emit (if super then bc_send_super else bc_send) (Z.lor (Z.shiftl i 8) nargs))
  | Some b =>
    if negb super && (b <? 32) then emit b 0
    else emit (if super then bc_send_super_immediate else bc_send_immediate) b
  end ;;
  sub nargs.

(** is_super; libgst/comp.c:1982-1988 *)
Definition is_super (e : expr) : bool :=
  match e with EVar _ x => String.eqb x "super" | _ => false end.

(** the number of arguments; libgst/comp.c:1397 *)
Fixpoint elength (es : exprs) : Z :=
  match es with ENil => 0 | ECons _ es' => 1 + elength es' end.

(** the line of an expression; libgst/comp.c:943 *)
Definition line_of (e : expr) : Z :=
  match e with
  | EVar ln _ | ELit ln _ | EBlock ln _ _ _ | ESend ln _ _ _ | ECascade ln _ _
  | EAssign ln _ _ => ln
  end.

(** * Jumps *)

(** compile_jump; libgst/comp.c:1856-1868 *)
Definition compile_jump (len : Z) (on_true : bool) : comp :=
  if len <=? 0 then refuse
  else sub 1 ;; emit (if on_true then bc_pop_jump_true else bc_pop_jump_false) len.

(** the length of a jump, as while loops and repeat compute it;
    libgst/comp.c:1491-1496, 1543-1548 *)
Definition jump_size (n : Z) : Z :=
  if n >=? 65536 then 6 else if n >=? 256 then 4 else 2.

(** and as the other loops do; libgst/comp.c:1594-1599, 1674-1679 *)
Definition jump_size_gt (n : Z) : Z :=
  if n >? 65536 then 6 else if n >? 256 then 4 else 2.

(** the search for the lengths of the two jumps of a loop, one turn for each
    length of the jump around; size is one of the functions above, and ofs the
    distance of the jump back without the jump around;
    libgst/comp.c:1488-1499, 1591-1602, 1671-1682.  Answers the lengths of the
    jump around and of the jump back *)
Fixpoint jump_lengths (fuel : nat) (size : Z -> Z) (ofs around : Z) (old final : Z) :
  outcome (Z * Z) :=
  match fuel with
  | O => OutOfFuel
  | S f =>
    let fofs := ofs + old in
    let final := size (fofs + final) in
    let final := size (fofs + final) in
    let new := size (around + final) in
    if new =? old then Ok (new, final)
    else jump_lengths f size ofs around new final
  end.

(** the two lengths are handed on.  Vocabulary, not code *)
Definition lengths (r : outcome (Z * Z)) (k : Z -> Z -> comp) : comp := fun s =>
  olet p := r in k (fst p) (snd p) s.

(** compile_while_loop, given the code of the two blocks;
    libgst/comp.c:1474-1524 *)
Definition compile_while (on : bool) (cond : comp) (body : option comp) : comp :=
  apart cond (fun rc =>
  splice rc ;;
  match body with
  | Some b =>
    apart b (fun wc =>
      let around := vlen wc + 2 in
      let ofs := vlen rc + 2 + around in
      lengths (jump_lengths 8 jump_size ofs around 0 0) (fun len final =>
        compile_jump len on ;;
        emit bc_jump (around + final) ;;
        splice wc ;; emit bc_pop 0 ;; sub 1 ;;
        emit bc_jump_back (final + (ofs + len))))
  | None =>
    let ofs := vlen rc + 2 in
    lengths (jump_lengths 8 jump_size ofs 0 0 0) (fun len final =>
      compile_jump len on ;;
      emit bc_jump final ;;
      emit bc_jump_back (final + (ofs + len)))
  end) ;;
  incr ;; emit bc_push_special nil_index.

(** compile_repeat; libgst/comp.c:1527-1561 *)
Definition compile_repeat (body : comp) : comp :=
  apart body (fun v =>
    let len := vlen v + 2 in
    let final := jump_size len in
    let final := jump_size (len + final) in
    let final := jump_size (len + final) in
    splice v ;; emit bc_pop 0 ;; sub 1 ;;
    emit bc_jump_back (final + len) ;;
    emit bc_push_special nil_index ;; incr).

(** compile_times_repeat; libgst/comp.c:1576-1620 *)
Definition compile_times_repeat (body : comp) : comp :=
  emit bc_dup 0 ;; incr ;;
  apart body (fun v =>
    emit bc_dup 0 ;; incr ;; emit bc_push_integer 1 ;; incr ;;
    emit bc_greater_equal 0 ;; sub 1 ;;
    let around := 6 + vlen v in
    lengths (jump_lengths 8 jump_size_gt (6 + around) around 0 0) (fun len final =>
      compile_jump (around + final) false ;;
      emit bc_push_integer 1 ;; incr ;; emit bc_minus 0 ;; sub 1 ;;
      splice v ;; emit bc_pop 0 ;; sub 1 ;;
      emit bc_jump_back (final + (6 + len + around)) ;;
      emit bc_pop 0 ;; sub 1)).

(** _gst_declare_name for a new name in the scope; libgst/sym.c:460-485 *)
Definition declare (x : string) (writeable : bool) (k : Z -> comp) : comp := fun s =>
  let i := (s_args s + s_temps s)%nat in
  k (Z.of_nat i) (with_syms s ((x, i, negb writeable) :: s_syms s) (S (s_temps s))).

(** _gst_undeclare_name; libgst/sym.c:448-457 *)
Definition undeclare : comp := fun s =>
  Ok (vec0, with_syms s (tl (s_syms s)) (s_temps s)).

(** compile_to_by_do, given the code of the limit, the step if it is there, and
    the body; libgst/comp.c:1647-1718 *)
Definition compile_to_by_do (x : string) (limit : comp) (by_ : option (Z * comp))
    (body : comp) : comp :=
  declare x false (fun index =>
    emit bc_store_temp index ;;
    limit ;;
    emit bc_dup index ;; incr ;;
    emit bc_push_temp index ;;
    apart (match by_ with Some (_, c) => c | None => skip end) (fun sc =>
    apart body (fun v =>
      let around := (match by_ with Some _ => vlen sc | None => 2 end) + vlen v + 10 in
      lengths (jump_lengths 8 jump_size_gt (around + 2) around 0 0) (fun len final =>
        emit (if match by_ with Some (z, _) => z >? 0 | None => true end
              then bc_greater_equal else bc_less_equal) 0 ;; sub 1 ;;
        compile_jump (around + final) false ;;
        splice v ;; emit bc_pop 0 ;; sub 1 ;;
        emit bc_dup 0 ;; incr ;; emit bc_push_temp index ;; incr ;;
        match by_ with
        | Some _ => splice sc
        | None => emit bc_push_integer 1 ;; incr
        end ;;
        emit bc_plus 0 ;; sub 1 ;;
        emit bc_store_temp index ;;
        emit bc_jump_back (around + len + 2 + final) ;;
        emit bc_pop 0 ;; sub 1 ;;
        undeclare)))).

(** compile_if_true_false_statement; libgst/comp.c:1735-1758.  The code for false
    is compiled first *)
Definition jump_over (c : comp) (returns : bool) (len : Z) : comp :=
  c ;; if returns then skip else emit bc_jump len.
Definition compile_if_true_false (t : comp) (t_returns : bool) (f : comp) : comp :=
  apart f (fun fc =>
  apart (jump_over t t_returns (vlen fc)) (fun tc =>
    compile_jump (vlen tc) false ;; splice tc ;; splice fc)).

(** compile_if_statement; libgst/comp.c:1766-1791 *)
Definition compile_if (on_false : bool) (t : comp) (t_returns : bool) : comp :=
  apart (jump_over t t_returns 2) (fun tc =>
    compile_jump (vlen tc) on_false ;; splice tc ;;
    emit bc_push_special nil_index).

(** compile_and_or_statement; libgst/comp.c:1801-1813 *)
Definition compile_and_or (is_or : bool) (b : comp) : comp :=
  apart b (fun v =>
    emit bc_dup 0 ;; compile_jump (vlen v + 2) is_or ;; emit bc_pop 0 ;; splice v).

(** the value of compile_statements: whether the last statement is a return;
    libgst/comp.c:1249 *)
Fixpoint returns (ss : stmts) : bool :=
  match ss with SNil => false | SExpr _ ss' => returns ss' | SReturn _ => true end.

(** * The compiler *)

(** the selectors that are compiled in line, by the way they are;
    libgst/comp.c:1300-1312, 1347-1394 *)
Inductive inline :=
| ToWhile (on : bool) | ToRepeat | ToIf (on_false : bool) | ToIfElse (true_first : bool)
| ToAndOr (is_or : bool) | ToTimes | ToTo | ToToBy | ToNone.
Definition inline_of (s : string) : inline :=
  if String.eqb s "whileTrue" || String.eqb s "whileTrue:" then ToWhile true
  else if String.eqb s "whileFalse" || String.eqb s "whileFalse:" then ToWhile false
  else if String.eqb s "repeat" then ToRepeat
  else if String.eqb s "ifTrue:" then ToIf false
  else if String.eqb s "ifFalse:" then ToIf true
  else if String.eqb s "ifTrue:ifFalse:" then ToIfElse true
  else if String.eqb s "ifFalse:ifTrue:" then ToIfElse false
  else if String.eqb s "and:" then ToAndOr false
  else if String.eqb s "or:" then ToAndOr true
  else if String.eqb s "timesRepeat:" then ToTimes
  else if String.eqb s "to:do:" then ToTo
  else if String.eqb s "to:by:do:" then ToToBy
  else ToNone.

(** compile_simple_expression, libgst/comp.c:940-979, after the line number;
    compile_expression, libgst/comp.c:928-938; compile_keyword_list,
    libgst/comp.c:1439-1444; compile_cascaded_message, libgst/comp.c:1870-1913;
    compile_statements, libgst/comp.c:1201-1250, for a block compiled in line,
    with compile_sub_expression, libgst/comp.c:1817-1833.  Return statements are
    the last (libgst/gst-parse.c:1574), and they leave the method
    (libgst/comp.c:924) *)
Fixpoint compile_body (c : ctx) (e : expr) {struct e} : comp :=
  match e with
  | EVar _ x => compile_variable c x
  | ELit _ k => compile_constant (lit_of k)
  | EBlock _ _ _ _ => refuse
  | EAssign _ ts e1 => line (line_of e1) ;; compile_body c e1 ;; compile_assignments c ts
  | ECascade _ r ms =>
    let go := match r with EAssign _ _ _ => skip | _ => line (line_of r) end ;; compile_body c r in
    match ms with
    | MNil => refuse
    | MCons ln s args ms' =>
      go ;; emit bc_dup 0 ;; incr ;;
      line ln ;; compile_args c args ;; compile_send c (is_super r) s (elength args) ;;
      compile_cascaded c ms'
    end
  | ESend _ r s args =>
    let go := match r with EAssign _ _ _ => skip | _ => line (line_of r) end ;; compile_body c r in
    let plain := go ;; compile_args c args ;; compile_send c (is_super r) s (elength args) in
    match inline_of s, r, args with
    | ToWhile on, EBlock _ [] [] cond, ENil =>
      compile_while on (compile_block c cond) None
    | ToWhile on, EBlock _ [] [] cond, ECons (EBlock _ [] [] body) ENil =>
      compile_while on (compile_block c cond) (Some (compile_block c body))
    | ToRepeat, EBlock _ [] [] body, ENil => compile_repeat (compile_block c body)
    | ToIf b, _, ECons (EBlock _ [] [] t) ENil =>
      go ;; compile_if b (compile_block c t) (returns t)
    | ToIfElse true, _, ECons (EBlock _ [] [] t) (ECons (EBlock _ [] [] f) ENil) =>
      go ;; compile_if_true_false (compile_block c t) (returns t) (compile_block c f)
    | ToIfElse false, _, ECons (EBlock _ [] [] f) (ECons (EBlock _ [] [] t) ENil) =>
      go ;; compile_if_true_false (compile_block c t) (returns t) (compile_block c f)
    | ToAndOr b, _, ECons (EBlock _ [] [] t) ENil =>
      go ;; compile_and_or b (compile_block c t)
    | ToTimes, _, ECons (EBlock _ [] [] b) ENil =>
      go ;; compile_times_repeat (compile_block c b)
    | ToTo, _, ECons l (ECons (EBlock _ [x] [] b) ENil) =>
      go ;; compile_to_by_do x
              (match l with EAssign _ _ _ => skip | _ => line (line_of l) end ;; compile_body c l)
              None (compile_block c b)
    | ToToBy, _, ECons l (ECons (ELit ln (KInt z)) (ECons (EBlock _ [x] [] b) ENil)) =>
      go ;; compile_to_by_do x
              (match l with EAssign _ _ _ => skip | _ => line (line_of l) end ;; compile_body c l)
              (Some (z, line ln ;; compile_constant (LInt z))) (compile_block c b)
    | _, _, _ => plain
    end
  end
with compile_args (c : ctx) (es : exprs) {struct es} : comp :=
  match es with
  | ENil => skip
  | ECons e es' =>
    match e with EAssign _ _ _ => skip | _ => line (line_of e) end ;; compile_body c e ;;
    compile_args c es'
  end
with compile_cascaded (c : ctx) (ms : msgs) {struct ms} : comp :=
  match ms with
  | MNil => skip
  | MCons ln s args ms' =>
    emit bc_pop 0 ;;
    match ms' with MNil => sub 1 | _ => emit bc_dup 0 end ;;
    line ln ;; compile_args c args ;; compile_send c false s (elength args) ;;
    compile_cascaded c ms'
  end
with compile_block (c : ctx) (ss : stmts) {struct ss} : comp :=
  match ss with
  | SNil => incr ;; emit bc_push_special nil_index
  | SReturn e =>
    match e with EAssign _ _ _ => skip | _ => line (line_of e) end ;; compile_body c e ;;
    emit bc_return 0 ;; sub 1 ;; incr
  | SExpr e ss' =>
    match e with EAssign _ _ _ => skip | _ => line (line_of e) end ;; compile_body c e ;;
    match ss' with
    | SNil => skip
    | _ => sub 1 ;; emit bc_pop 0 ;; compile_block c ss'
    end
  end.

(** compile_expression; libgst/comp.c:928-938 *)
Definition compile_expression (c : ctx) (e : expr) : comp :=
  match e with EAssign _ _ _ => skip | _ => line (line_of e) end ;; compile_body c e.

(** the statements of a method; libgst/comp.c:770-804.  The flag says whether the
    value of the last one is answered, as for immediate statements *)
Fixpoint compile_method_body (c : ctx) (return_last : bool) (ss : stmts) : comp :=
  match ss with
  | SNil => skip
  | SReturn e => compile_expression c e ;; emit bc_return 0 ;; sub 1
  | SExpr e ss' =>
    compile_expression c e ;;
    match ss' with
    | SNil =>
      if return_last then emit bc_return 0
      else sub 1 ;; emit bc_pop 0 ;; emit bc_push_self 0 ;; emit bc_return 0
    | _ => sub 1 ;; emit bc_pop 0 ;; compile_method_body c return_last ss'
    end
  end.

(** _gst_declare_arguments and _gst_declare_temporaries: a name that is declared
    twice is refused; libgst/sym.c:397-431, 469-470 *)
Fixpoint declare_names (xs : list string) (ro : bool) (i : nat)
    (l : list (string * nat * bool)) : option (list (string * nat * bool)) :=
  match xs with
  | [] => Some l
  | x :: xs' =>
    match find_local x l with
    | Some _ => None
    | None => declare_names xs' ro (S i) ((x, i, ro) :: l)
    end
  end.

(** method_header, libgst/comp.h:88-92: the fields have five and six bits *)
Record header := Header { h_args : Z; h_temps : Z; h_depth : Z }.

(** what a compiled method holds, libgst/comp.h:103-129, and the greatest depth of
    the stack and the number of temporaries from which its header was made,
    libgst/comp.c:822-834 *)
Record cmethod := CMethod {
  cm_header : header;
  cm_lits : list lit;
  cm_is : list (Z * Z);
  cm_max : Z;
  cm_temps : nat
}.

(** _gst_make_new_method, libgst/comp.c:2620, 2671-2679; DEPTH_SCALE is 2,
    libgst/comp.h:62 *)
Definition make_header (args temps depth : Z) : header :=
  let depth := Z.shiftr (depth + args + temps + 3) 2 + 1 in
  Header (args mod 32) (temps mod 64) (depth mod 64).

(** _gst_compile_method, libgst/comp.c:740-834, up to the optimiser.  The last
    flag says whether the method is read from a terminal, so that its line is
    not emitted (libgst/comp.c:735-744) *)
Definition compile_method (c : ctx) (m : meth) (return_last prompt : bool) :
  outcome cmethod :=
  let n := if m_line m >? 65535 then 65535 else m_line m in
  if negb (n >? 0) then Abort
  else
  let absolute := negb prompt && match m_body m with SNil => false | _ => true end in
  let start := if absolute then Vec [(bc_line, n)] 0 0 0 else vec0 in
  match declare_names (m_params m) true 0 [] with
  | None => Err
  | Some l1 =>
    match declare_names (m_temps m) false (List.length (m_params m)) l1 with
    | None => Err
    | Some l2 =>
      let s := Cst [] l2 (List.length (m_params m)) (List.length (m_temps m))
                   (if absolute then n else 0) (-1) (n - 1) in
      olet r := ((fun s => Ok (start, s)) ;;
                 match m_body m with
                 | SNil => emit (if return_last then bc_push_special else bc_push_self) 0 ;;
                           emit bc_return 0
                 | ss => compile_method_body c return_last ss
                 end) s in
      let v := fst r in
      if v_low v <? 0 then Abort
      else Ok (CMethod
                 (make_header (Z.of_nat (s_args (snd r))) (Z.of_nat (s_temps (snd r)))
                              (v_max v))
                 (s_lits (snd r)) (v_is v) (v_max v) (s_temps (snd r)))
    end
  end.

(** * The interpreter *)

(** objects: nil, true, false, integers of any size, and others, numbered;
    libgst/oop.h:89-91 *)
Inductive value := VNil | VTrue | VFalse | VInt (z : Z) | VObj (n : nat).

(** what the method runs in, over the states W of everything else: what messages
    do, None if they do not come back; global and instance variables; the
    receiver, and the objects that are literals.  A bytecode for a common
    message is taken to do what the message does (libgst/vm.def:225-640) *)
Record system (W : Type) := System {
  perform : W -> value -> string -> list value -> option (value * W);
  perform_super : W -> value -> string -> list value -> option (value * W);
  global_get : W -> string -> value;
  global_put : W -> string -> value -> W;
  inst_get : W -> nat -> value;
  inst_put : W -> nat -> value -> W;
  receiver : value;
  object : lit -> value
}.
Arguments perform {W}. Arguments perform_super {W}. Arguments global_get {W}.
Arguments global_put {W}. Arguments inst_get {W}. Arguments inst_put {W}.
Arguments receiver {W}. Arguments object {W}.

(** fetching of a bytecode with its extensions; libgst/vm.def:206-223.  Answers
    the opcode, the argument and the number of pairs *)
Fixpoint fetch (acc : Z) (code : list (Z * Z)) : option (Z * Z * nat) :=
  match code with
  | [] => None
  | (b, x) :: rest =>
    let arg := Z.lor (Z.shiftl acc 8) x in
    if b =? ext_byte then
      match fetch arg rest with
      | Some (b', a, n) => Some (b', a, S n)
      | None => None
      end
    else Some (b, arg, 1%nat)
  end.

(** the state of the method context: the instruction pointer, in pairs, the
    stack, its top first, and the slots of the arguments and temporaries
    (libgst/interp.h:110-124), and the state of everything else *)
Record mst (W : Type) := Mst {
  ip : nat; stack : list value; slots : list value; world : W
}.
Arguments Mst {W}. Arguments ip {W}. Arguments stack {W}. Arguments slots {W}.
Arguments world {W}.

(** what a step does: go on, answer, leave for ever, use a slot of the stack that
    the context does not have, or something undefined *)
Inductive did (W : Type) :=
| Next (s : mst W) | Done (v : value) (w : W) | Left | Overflow | Undefined.
Arguments Next {W}. Arguments Done {W}. Arguments Left {W}. Arguments Overflow {W}.
Arguments Undefined {W}.

(** how many slots of the context are left for the stack: contexts have
    CTX_SIZE (depth) slots, libgst/interp.h:90-91, and the arguments and
    temporaries come first; libgst/interp.c:790-809, 870-913 *)
Definition room (h : header) : Z := 4 * h_depth h - h_args h - h_temps h.

Section Machine.
  Variable W : Type.
  Variable sys : system W.
  Variable lits : list lit.
  Variable limit : Z.        (* the slots of the stack *)
  Variable code : list (Z * Z).

  (** pushing; libgst/gstpriv.h:383-403 *)
  Definition push (v : value) (s : mst W) : did W :=
    if Z.of_nat (List.length (stack s)) <? limit
    then Next (Mst (ip s) (v :: stack s) (slots s) (world s))
    else Overflow.

  (** the first n elements of the stack, and the rest *)
  Fixpoint pop_n (n : nat) (st : list value) : option (list value * list value) :=
    match n with
    | O => Some ([], st)
    | S n' => match st with
              | [] => None
              | v :: st' => match pop_n n' st' with
                            | Some (l, r) => Some (v :: l, r)
                            | None => None
                            end
              end
    end.

  (** sending a message; libgst/vm.def:642-659 *)
  Definition send (super : bool) (sel : string) (n : nat) (s : mst W) : did W :=
    match (if super then match stack s with [] => None | _ :: st => Some st end
           else Some (stack s)) with
    | None => Undefined
    | Some st =>
      match pop_n n st with
      | Some (args, r :: st') =>
        match (if super then perform_super sys else perform sys) (world s) r sel (rev args) with
        | Some (v, w) => Next (Mst (ip s) (v :: st') (slots s) w)
        | None => Left
        end
      | _ => Undefined
      end
    end.

  (** a message by the number of its selector; libgst/vm.def:661-680 *)
  Definition send_builtin (super : bool) (c : Z) (s : mst W) : did W :=
    match builtin_of c with
    | Some (sel, n) => send super sel n s
    | None => Undefined
    end.

  (** jumps, in bytes; libgst/vm.def:761-771 *)
  Definition move (n : Z) (s : mst W) : did W :=
    let i := Z.of_nat (ip s) + Z.shiftr n 1 in
    if Z.odd n || (i <? 0) then Undefined
    else Next (Mst (Z.to_nat i) (stack s) (slots s) (world s)).

  (** POP_JUMP_TRUE and POP_JUMP_FALSE; libgst/vm.def:773-807.  Other objects are
      sent #mustBeBoolean after the jump, and its answer replaces them *)
  Definition pop_jump (on : value) (off : value) (n : Z) (s : mst W) : did W :=
    match stack s with
    | [] => Undefined
    | v :: st =>
      if match v, on with VTrue, VTrue | VFalse, VFalse => true | _, _ => false end
      then move n (Mst (ip s) st (slots s) (world s))
      else if match v, off with VTrue, VTrue | VFalse, VFalse => true | _, _ => false end
      then Next (Mst (ip s) st (slots s) (world s))
      else match move n s with
           | Next s' => send false "mustBeBoolean" 0 s'
           | d => d
           end
    end.

  (** replacing an element of a list; Vocabulary, not code *)
  Fixpoint put (i : nat) (v : value) (l : list value) : option (list value) :=
    match i, l with
    | _, [] => None
    | O, _ :: l' => Some (v :: l')
    | S i', y :: l' => match put i' v l' with Some r => Some (y :: r) | None => None end
    end.

  (** the bytecodes, the instruction pointer being after them;
      libgst/vm.def:225-898 *)
  Definition execute (b a : Z) (s : mst W) : did W :=
    let index := Z.to_nat a in
    if b <? 27 then send_builtin false b s
    else if (b =? bc_send) || (b =? bc_send_super) then
      match nth_error lits (Z.to_nat (Z.shiftr a 8)) with
      | Some (LSym sel) => send (b =? bc_send_super) sel (Z.to_nat (Z.land a 255)) s
      | _ => Undefined
      end
    else if b =? bc_send_immediate then send_builtin false a s
    else if b =? bc_send_super_immediate then send_builtin true a s
    else if b =? bc_push_temp then
      match nth_error (slots s) index with
      | Some v => push v s
      | None => Undefined
      end
    else if b =? bc_push_lit_variable then
      match nth_error lits index with
      | Some (LVar g) => push (global_get sys (world s) g) s
      | _ => Undefined
      end
    else if b =? bc_push_receiver_variable then push (inst_get sys (world s) index) s
    else if b =? bc_push_lit_constant then
      match nth_error lits index with
      | Some (LVar _) | None => Undefined
      | Some l => push (object sys l) s
      end
    else if b =? bc_push_integer then push (VInt a) s
    else if b =? bc_push_special then
      match a with
      | 0 => push VNil s | 1 => push VTrue s | 2 => push VFalse s
      | _ => Undefined
      end
    else if b =? bc_push_self then push (receiver sys) s
    else if b =? bc_line then Next s
    else if b =? bc_jump then move a s
    else if b =? bc_jump_back then move (- a) s
    else if b =? bc_pop_jump_true then pop_jump VTrue VFalse a s
    else if b =? bc_pop_jump_false then pop_jump VFalse VTrue a s
    else match stack s with
         | [] => Undefined
         | v :: st =>
           if b =? bc_dup then push v s
           else if b =? bc_pop then Next (Mst (ip s) st (slots s) (world s))
           else if b =? bc_return then Done v (world s)
           else if b =? bc_store_temp then
             match put index v (slots s) with
             | Some l => Next (Mst (ip s) (stack s) l (world s))
             | None => Undefined
             end
           else if b =? bc_store_receiver_variable then
             Next (Mst (ip s) (stack s) (slots s) (inst_put sys (world s) index v))
           else if b =? bc_store_lit_variable then
             match nth_error lits index with
             | Some (LVar g) =>
               Next (Mst (ip s) (stack s) (slots s) (global_put sys (world s) g v))
             | _ => Undefined
             end
           else Undefined
         end.

  (** one turn of the interpreter; libgst/vm.def:206-223 *)
  Definition step (s : mst W) : did W :=
    match fetch 0 (skipn (ip s) code) with
    | None => Undefined
    | Some (b, a, n) => execute b a (Mst (ip s + n) (stack s) (slots s) (world s))
    end.

  (** the interpreter, for a number of turns; Next means that it has not ended *)
  Fixpoint run (fuel : nat) (s : mst W) : did W :=
    match fuel with
    | O => Next s
    | S f => match step s with Next s' => run f s' | d => d end
    end.
End Machine.
Arguments push {W}. Arguments send {W}. Arguments send_builtin {W}. Arguments move {W}.
Arguments pop_jump {W}. Arguments execute {W}. Arguments step {W}. Arguments run {W}.

(** the activation of a method: the arguments, and nil in the temporaries;
    libgst/interp.c:870-913.  With other than h_args arguments the message is
    not sent (libgst/interp-bc.inl:221-243) *)
Definition activate {W} (h : header) (args : list value) (w : W) : mst W :=
  Mst 0 [] (args ++ repeat VNil (Z.to_nat (h_temps h))) w.

(** running a method for a number of turns, in a stack of a given size *)
Definition run_method {W} (sys : system W) (limit : Z) (cm : cmethod)
    (fuel : nat) (args : list value) (w : W) : did W :=
  run sys (cm_lits cm) limit (flat (cm_is cm)) fuel (activate (cm_header cm) args w).
