(** What may follow a printed value in the text that is read. *)
From Coq Require Import Ascii.
From Verif Require Import Base.

(** Nothing, or something that is not a digit. *)
Definition not_digit_next (r : list ascii) : Prop :=
  match r with [] => True | c :: _ => ~ In c ["0"; "1"; "2"; "3"; "4"; "5"; "6"; "7"; "8"; "9"]%char end.
(** Nothing, or a space, or the end of a line. *)
Definition blank_next (r : list ascii) : Prop :=
  match r with [] => True | c :: _ => c = " "%char \/ c = "010"%char \/ c = "013"%char \/ c = "009"%char end.
