(** What is expected of symbols, without reference to the symbol table. *)
From Coq Require Import ZArith List Bool.
Import ListNotations.
Local Open Scope Z_scope.

(** The syntax of message names (the C grammar of libgst/lex.c:558-745 and the
    Smalltalk language definition). *)

(** a letter or an underscore; libgst/lex.c:299-352 *)
Definition letter (c : Z) : Prop :=
  65 <= c <= 90 \/ 97 <= c <= 122 \/ c = 95.

(** a digit; libgst/lex.c:282-291 *)
Definition digit (c : Z) : Prop := 48 <= c <= 57.

(** an identifier; libgst/lex.c:698-745 *)
Definition identifier (s : list Z) : Prop :=
  match s with
  | [] => False
  | c :: s => letter c /\ Forall (fun c => letter c \/ digit c) s
  end.

(** the characters  + - * / \ < > = ~ , % @ ? & |  ; libgst/lex.c:271-356 *)
Definition operator (c : Z) : Prop :=
  In c [43; 45; 42; 47; 92; 60; 62; 61; 126; 44; 37; 64; 63; 38; 124].

(** a message name and its number of arguments; libgst/lex.c:558-745 *)
Inductive selector : Z -> list Z -> Prop :=
  | sel_unary s : identifier s -> selector 0 s
  | sel_binary s : s <> [] -> Forall operator s -> selector 1 s
  | sel_keyword s : identifier s -> selector 1 (s ++ [58])
  | sel_keywords n s k : identifier s -> selector n k -> 1 <= n ->
      (exists k', k = k' ++ [58]) -> selector (n + 1) (s ++ 58 :: k).

(** [s] has no NUL character; libgst/sym.c:1454 *)
Definition nulfree (s : list Z) : Prop := ~ In 0 s.
