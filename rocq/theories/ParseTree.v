(** Tokens and parse trees: what passes between the lexer and the parser, and
    between the parser and the compiler. Definitions only. *)
From Verif Require Import Base.
From Coq Require Export String.
Open Scope string_scope.
Open Scope list_scope.
Open Scope Z_scope.

(** The tokens of libgst/lex.h (TOKEN_DEFS) and the single characters that
    libgst/gst-parse.c compares with [token (p, 0)].  [Int] is
    INTEGER_LITERAL; [Num] stands for LARGE_INTEGER_LITERAL, FLOATx_LITERAL and
    SCALED_DECIMAL_LITERAL, which the parser treats alike (gst-parse.c:1743-1758,
    1791-1810), with an integer in place of the number; [Const] stands for
    STRING_LITERAL and SYMBOL_LITERAL with a number in place of the text;
    [Binop] is BINOP with its text, while '<' '>' '-' '|' are tokens of their
    own.  Simplified: locations are left out. *)
Inductive token :=
| Ident (s : string)
| Keyword (s : string)
| Binop (s : string)
| Lt | Gt | Minus | Bar
| Int (z : Z)
| Num (z : Z)
| Const (c : Z)
| Char (c : Z)
| Assign
| Scope
| Hash | LParen | RParen | LBrack | RBrack | LBrace | RBrace
| Dot | Semi | Caret | Colon | Bang.

(** Trees (libgst/tree.h, built by the _gst_make_* functions of
    libgst/tree.c:91-540).  A message is a node whose receiver is left out: in
    a cascade the C code makes the node with a NULL receiver
    (gst-parse.c:2147-2160).  [ECascade r m ms] is the node of
    _gst_make_cascaded_message (node, cascade) where [node] is the send of [m]
    to [r] (gst-parse.c:2121-2126).  A compile-time constant is the tree of the
    method that computes it (gst-parse.c:1949-1977). *)
Inductive expr :=
| EVar (path : list string)
| ELit (l : lit)
| EBlock (vars temps : list string) (body : list stmt)
| EBrace (body : list stmt)
| ESend (r : expr) (m : msg)
| ECascade (r : expr) (m : msg) (ms : list msg)
| EAssign (vars : list (list string)) (e : expr)
with msg :=
| MUnary (s : string)
| MBinary (s : string) (arg : expr)
| MKeyword (args : list (string * expr))
with stmt :=
| SExpr (e : expr)
| SReturn (e : expr)
with lit :=
| LInt (z : Z)
| LNum (z : Z)
| LConst (c : Z)
| LChar (c : Z)
| LTrue | LFalse | LNil
| LArray (elts : list lit)
| LBytes (elts : list Z)
| LBinding (path : list string)
| LDoit (temps : list string) (body : list stmt).

(** The pattern of a method: its selector and the names of its arguments
    (gst-parse.c:1371-1436). *)
Inductive pattern :=
| PUnary (s : string)
| PBinary (s : string) (arg : string)
| PKeyword (args : list (string * string)).

(** What _gst_make_method is given by parse_method (gst-parse.c:1347-1352). *)
Record method := Method {
  m_pattern : pattern;
  m_attributes : list msg;
  m_temps : list string;
  m_body : list stmt }.
