(** What patterns, words and shell commands mean. *)
From Verif Require Import Base.

(** [w] matches the pattern: hash (35) stands for any character, star (42) for any number of characters, others
    for the characters related to them. *)
Inductive matches (same : Z -> Z -> Prop) : list Z -> list Z -> Prop :=
| M_end : matches same [] []
| M_any p c w : matches same p w -> matches same (35 :: p) (c :: w)
| M_star p u w : matches same p w -> matches same (42 :: p) (u ++ w)
| M_char p a c w : a <> 35 -> a <> 42 -> same a c -> matches same p w -> matches same (a :: p) (c :: w).
(** A character and itself, or the other case of the same letter of ASCII. *)
Definition same_letter (a b : Z) : Prop := a = b \/ 65 <= a <= 90 /\ b = a + 32 \/ 65 <= b <= 90 /\ a = b + 32.

(** What matches the pattern stands in [t] from [i] to [j], counted from 1. *)
Definition found (same : Z -> Z -> Prop) (p t : list Z) (i j : Z) : Prop :=
  exists a w b, t = a ++ w ++ b /\ matches same p w /\
    i = Z.of_nat (length a) + 1 /\ j = Z.of_nat (length a) + Z.of_nat (length w).

(** [ws] are the words of [s]: longest sequences of characters that are no separators. *)
Inductive words (sep : Z -> Prop) : list Z -> list (list Z) -> Prop :=
| W_end s : Forall sep s -> words sep s []
| W_word a w r ws : Forall sep a -> w <> [] -> Forall (fun c => ~ sep c) w ->
    (forall c r', r = c :: r' -> sep c) -> words sep r ws -> words sep (a ++ w ++ r) (w :: ws).
Definition white (c : Z) : Prop := In c [32; 13; 9; 10; 12].
(** [w] is [s] without what is white at both ends. *)
Definition trimmed (s w : list Z) : Prop :=
  (exists a b, s = a ++ w ++ b /\ Forall white a /\ Forall white b) /\
  (forall c w', w = c :: w' -> ~ white c) /\ (forall c w', w = w' ++ [c] -> ~ white c).

(** Reading words as a POSIX shell does (XCU 2.2, 2.3): blanks separate words, a backslash takes the next
    character literally, except for a newline, which goes away with it. None if an unquoted character ends the
    command or means anything but itself: a newline, quotes, operators, expansions, comments. *)
Definition blank (c : Z) : bool := (c =? 32) || (c =? 9).
Definition active (c : Z) : bool :=
  existsb (Z.eqb c) [10; 33; 34; 35; 36; 38; 39; 40; 41; 42; 59; 60; 61; 62; 63; 91; 94; 96; 123; 124; 125; 126].
Definition finish (w : option (list Z)) (ws : list (list Z)) : list (list Z) :=
  match w with Some w => w :: ws | None => ws end.
(** [w] is the word being read. *)
Fixpoint sh_read (s : list Z) (w : option (list Z)) : option (list (list Z)) :=
  match s with
  | [] => Some (finish w [])
  | c :: s =>
      let more x := Some (match w with Some w => w ++ [x] | None => [x] end) in
      if c =? 92 then
        match s with
        | [] => None
        | d :: s => if d =? 10 then sh_read s w else sh_read s (more d)
        end
      else if blank c then option_map (finish w) (sh_read s None)
      else if active c then None
      else sh_read s (more c)
  end.

(** The order of strings without regard to case: that of the lists of codes in lower case. *)
Definition small (c : Z) : Z := if (65 <=? c) && (c <=? 90) then c + 32 else c.
Inductive less : list Z -> list Z -> Prop :=
| L_end b l : less [] (b :: l)
| L_head a l b m : small a < small b -> less (a :: l) (b :: m)
| L_tail a l b m : small a = small b -> less l m -> less (a :: l) (b :: m).
Definition alike (a b : list Z) : Prop := Forall2 (fun x y => small x = small y) a b.

(** A text of digits with at most one point, after which there are digits. *)
Definition numeral (s : list Z) : Prop :=
  exists a, Forall (fun c => 48 <= c <= 57) a /\
    (a <> [] /\ s = a \/ exists b, b <> [] /\ Forall (fun c => 48 <= c <= 57) b /\ s = a ++ 46 :: b).
