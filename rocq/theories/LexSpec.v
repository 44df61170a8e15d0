(** What literals denote, independently of the lexer. *)
From Verif Require Import Base IntPrintSpec.
Local Open Scope Z_scope.

(** a text made of digits of base [b], with underscores anywhere
    (the syntax that libgst/lex.c:944-989 accepts) *)
Inductive digit_text (b : Z) : list Z -> list Z -> Prop :=
  | dt_nil : digit_text b [] []
  | dt_under ds w : digit_text b ds w -> digit_text b ds (95 :: w)
  | dt_digit d ds w : 0 <= d < b -> digit_text b ds w ->
      digit_text b (d :: ds) (ascii_digit d :: w).

(** [w] is a text with at least one digit, of value [v]; libgst/lex.c:944-989 *)
Definition numeral_text (b v : Z) (w : list Z) : Prop :=
  exists ds, ds <> [] /\ digit_text b ds w /\ v = pos_value b ds.

(** a decimal literal starts with a digit; libgst/lex.c:282-291 *)
Definition decimal_text (v : Z) (w : list Z) : Prop :=
  numeral_text 10 v w /\ match w with c :: _ => c <> 95 | [] => False end.

(** what may follow an integer literal: nothing, or a character that is no
    letter, digit or underscore; a full stop must not be followed by a digit or
    a capital; libgst/lex.c:794-917 *)
Definition after_literal (rest : list Z) : Prop :=
  match rest with
  | [] => True
  | c :: t =>
    ~ 48 <= c <= 57 /\ ~ 65 <= c <= 90 /\ ~ 97 <= c <= 122 /\ c <> 95 /\
    (c = 46 -> match t with d :: _ => ~ 48 <= d <= 57 /\ ~ 65 <= d <= 90 | [] => True end)
  end.

(** the same after the digits of a number in base [b]: digits and capitals that
    are no digits of that base may follow, and letters that introduce neither an
    exponent nor a scale (s, e, d, q) *)
Definition no_digit (b c : Z) : Prop := ~ (48 <= c <= 57 /\ c - 48 < b) /\ ~ (65 <= c <= 90 /\ c - 55 < b).
Definition after_radix (b : Z) (rest : list Z) : Prop :=
  match rest with
  | [] => True
  | c :: t =>
    no_digit b c /\ ~ In c [95; 115; 101; 100; 113] /\
    (c = 46 -> match t with d :: _ => no_digit b d | [] => True end)
  end.
