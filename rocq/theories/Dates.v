(** Date, kernel/Date.st. *)
From Verif Require Import Base.
Local Open Scope Z_scope.

(** The instance variables days, day, month, year. *)
Record date := mkD { days : Z; day : Z; month : Z; year : Z }.

(** setDays:, kernel/Date.st:639-660; fromDays:, kernel/Date.st:211-216.  [//] is Z.div. *)
Definition from_days (d : Z) : date :=
  let j0 := d + 2483955 in
  let n := 4 * j0 / 146097 in
  let j1 := j0 - (146097 * n + 3) / 4 in
  let y := 4000 * (j1 + 1) / 1461001 in
  let j2 := j1 - 1461 * y / 4 + 31 in
  let m := 80 * j2 / 2447 in
  let dd := j2 - 2447 * m / 80 in
  let j3 := m / 11 in
  mkD d dd (m + 2 - 12 * j3) (100 * (n - 49) + y + j3).

(** fromJulian:, kernel/Date.st:204-209. *)
Definition from_julian (jd : Z) : date := from_days (jd - 2415386).

(** fromSeconds:, kernel/Date.st:195-202. *)
Definition from_seconds (s : Z) : date := from_days (s / (24 * 60 * 60)).

(** yearAsDays:, kernel/Date.st:336-346. *)
Definition year_as_days (i : Z) : Z := (i + 4799) * 1461 / 4 - (i + 4899) / 100 * 3 / 4 - 2447125.

(** daysUntilMonth:year:, kernel/Date.st:348-362.  [quo:] is Z.quot. *)
Definition days_until_month (m y : Z) : Z :=
  let j := Z.quot (m - 14) 12 in
  let i := j + y in
  (i + 4800) * 1461 / 4 + (m - 2 - j * 12) * 367 / 12 - (i + 4900) / 100 * 3 / 4 - 2447461.

(** daysInYear:, kernel/Date.st:146-152. *)
Definition days_in_year (i : Z) : Z :=
  (i + 4800) * 1461 / 4 - (i + 4900) / 100 * 3 / 4
  - (i + 4799) * 1461 / 4 + (i + 4899) / 100 * 3 / 4.

(** daysInMonthIndex:forYear:, kernel/Date.st:364-371.  An index outside 1..12 is an
    error. *)
Definition days_in_month_index (m y : Z) : outcome Z :=
  if m =? 2 then Ok (days_in_year y - 337)
  else if (1 <=? m) && (m <=? 12)
  then Ok (nth (Z.to_nat (m - 1)) [31; 0; 31; 30; 31; 30; 31; 31; 30; 31; 30; 31] 0)
  else Err.

(** setDay:monthIndex:year:, kernel/Date.st:626-637; newDay:monthIndex:year:,
    kernel/Date.st:225-234. *)
Definition new_day_month_year (d m y : Z) : outcome date :=
  let n := d + days_until_month m y in
  if d <? 1 then Ok (from_days n)
  else olet len := days_in_month_index m y in
       if len <? d then Ok (from_days n) else Ok (mkD n d m y).

(** newDay:year:, kernel/Date.st:218-223. *)
Definition new_day_year (d y : Z) : date := from_days (d + year_as_days y).

(** dayOfWeek, kernel/Date.st:463-468; dayOfYear, 491-496; daysLeftInMonth, 519-524;
    daysLeftInYear, 526-531; firstDayOfMonth, 533-539; lastDayOfMonth, 548-554. *)
Definition day_of_week (x : date) : Z := (days x + 1) mod 7 + 1.
Definition day_of_year (x : date) : Z := days x - year_as_days (year x).
Definition days_left_in_month (x : date) : outcome Z :=
  olet n := days_in_month_index (month x) (year x) in Ok (n - day x).
Definition days_left_in_year (x : date) : Z := year_as_days (year x + 1) - days x.
Definition first_day_of_month (x : date) : date := from_days (days x - (day x - 1)).
Definition last_day_of_month (x : date) : outcome date :=
  olet n := days_left_in_month x in Ok (from_days (days x + n)).
