(** What may follow a literal in source code, independently of the lexer. *)
From Verif Require Import Base.
Local Open Scope Z_scope.

(** after a string: anything but another quote; libgst/lex.c:680-690 *)
Definition after_string (rest : list Z) : Prop :=
  match rest with [] => True | c :: _ => c <> 39 end.

(** the characters of operators: % & * + , - / < = > ? @ \ | ~ ;
    kernel/Symbol.st:343 *)
Definition operator_char (c : Z) : Prop :=
  In c [37; 38; 42; 43; 44; 45; 47; 60; 61; 62; 63; 64; 92; 124; 126].

(** after a symbol: no character that could continue it; libgst/lex.c:590-605 *)
Definition after_symbol (rest : list Z) : Prop :=
  match rest with
  | [] => True
  | c :: _ => ~ operator_char c /\ ~ 48 <= c <= 57 /\ ~ 65 <= c <= 90 /\ ~ 97 <= c <= 122 /\
              ~ In c [36; 39; 58; 95]
  end.

(** after a character: for the form with a code point, no operator; after a
    plain < sign, no integer; libgst/gst-parse.c:1814-1833 *)
Definition after_char (c : Z) (rest : list Z) : Prop :=
  (c = 60 -> forall blanks d t, rest = blanks ++ d :: t ->
     Forall (fun x => In x [9; 12; 13; 32]) blanks -> ~ 48 <= d <= 57) /\
  (~ 32 <= c <= 126 -> match rest with [] => True | d :: _ => ~ operator_char d end).
