(** Positional notation, independently of the code: [numeral b v l] says that the
    digits l, most significant first, are the usual notation of v in base b. *)
From Verif Require Import Base.

Definition pos_value (b : Z) (l : list Z) : Z := fold_left (fun acc d => acc * b + d) l 0.
Definition numeral (b v : Z) (l : list Z) : Prop :=
  Forall (fun d => 0 <= d < b) l /\ pos_value b l = v /\
  match l with [] => False | d :: r => d = 0 -> r = [] end.
(** ASCII: 0-9 then A-Z. *)
Definition ascii_digit (d : Z) : Z := if d <? 10 then 48 + d else 65 + (d - 10).
Definition lowercase (c : Z) : Z := if (65 <=? c) && (c <=? 90) then c + 32 else c.
(** The usual notation of an integer: a minus sign, if needed, and its digits. *)
Definition notation (b n : Z) (s : list Z) : Prop :=
  exists l, numeral b (Z.abs n) l /\
    s = (if n <? 0 then [45] else []) ++ map ascii_digit l.
(** The text after a number: nothing, or something that starts with a character
    that is no letter, digit or full stop. *)
Definition after_number (rest : list Z) : Prop :=
  match rest with
  | [] => True
  | c :: _ => ~ 48 <= c <= 57 /\ ~ 65 <= c <= 90 /\ ~ 97 <= c <= 122 /\ c <> 46
  end.
