(** The Gregorian calendar. *)
From Verif Require Import Base.
Local Open Scope Z_scope.

Definition leap (y : Z) : bool :=
  ((y mod 4 =? 0) && negb (y mod 100 =? 0)) || (y mod 400 =? 0).

Definition month_length (y m : Z) : Z :=
  if m =? 2 then (if leap y then 29 else 28)
  else if (m =? 4) || (m =? 6) || (m =? 9) || (m =? 11) then 30 else 31.

Definition year_length (y : Z) : Z := if leap y then 366 else 365.

(** Year, month, day. *)
Definition ymd := (Z * Z * Z)%type.

Definition valid (x : ymd) : Prop :=
  let '(y, m, d) := x in 1 <= m <= 12 /\ 1 <= d <= month_length y m.

(** The day after. *)
Definition next_day (x : ymd) : ymd :=
  let '(y, m, d) := x in
  if d <? month_length y m then (y, m, d + 1)
  else if m <? 12 then (y, m + 1, 1) else (y + 1, 1, 1).

(** The date that is [n] days after 1 January 1901. *)
Definition epoch : ymd := (1901, 1, 1).
Inductive nth_date : Z -> ymd -> Prop :=
| nd_epoch : nth_date 0 epoch
| nd_next n x : nth_date n x -> nth_date (n + 1) (next_day x)
| nd_prev n x : valid x -> nth_date (n + 1) (next_day x) -> nth_date n x.

(** The number of days of the months before [m] in year [y]. *)
Definition days_before_month (y m : Z) : Z :=
  fold_right Z.add 0 (map (month_length y) (firstn (Z.to_nat (m - 1)) [1;2;3;4;5;6;7;8;9;10;11;12])).
