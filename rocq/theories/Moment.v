(** DateTime, Duration and Time, kernel/AnsiDates.st and kernel/Time.st.
    Simplified: the number of seconds is an Integer (not a Fraction or a Float). *)
From Verif Require Import Base Dates.
Local Open Scope Z_scope.

(** The instance variables of a DateTime, kernel/AnsiDates.st:35-36: those of a Date, the
    seconds since midnight and the offset, a Duration given here by its number of seconds. *)
Record moment := mkM { m_date : date; secs : Z; ofs : Z }.
(** days, kernel/Date.st:619-624. *)
Definition m_days (x : moment) : Z := days (m_date x).

(** fromDays:seconds:offset:, kernel/AnsiDates.st:79-88. *)
Definition from_parts (d s o : Z) : moment := mkM (from_days (d + s / 86400)) (s mod 86400) o.
(** fromSeconds:offset:, kernel/AnsiDates.st:54-61. *)
Definition from_secs (s o : Z) : moment := from_parts 0 s o.
(** year:month:day:hour:minute:second:offset:, kernel/AnsiDates.st:178-193, with
    year:month:day:hour:minute:second: of kernel/Date.st:318-328. *)
Definition new_moment (y mo d h mi s o : Z) : outcome moment :=
  olet x := new_day_month_year d mo y in Ok (mkM x ((h * 60 + mi) * 60 + s) o).

(** Duration>>days, kernel/AnsiDates.st:687-692; hours, minutes and seconds,
    kernel/Time.st:314-333.  [quo:] is Z.quot and [rem:] is Z.rem. *)
Definition dur_days (s : Z) : Z := Z.quot s 86400.
Definition dur_hours (s : Z) : Z := Z.rem (Z.quot s 3600) 24.
Definition dur_minutes (s : Z) : Z := Z.rem (Z.quot s 60) 60.
Definition dur_seconds (s : Z) : Z := Z.rem s 60.
(** days:hours:minutes:seconds:, kernel/AnsiDates.st:584-590. *)
Definition duration (d h m s : Z) : Z := ((d * 24 + h) * 60 + m) * 60 + s.
(** Duration class>>fromDays:seconds:offset:, kernel/AnsiDates.st:552-559. *)
Definition dur_from_parts (d s : Z) : Z := d * 86400 + s.

(** DateTime>>+, kernel/AnsiDates.st:236-253. *)
Definition plus (x : moment) (d : Z) : moment :=
  let n := secs x + Z.rem d 86400 in
  if 86400 <? n then from_parts (m_days x + dur_days d + 1) (n - 86400) (ofs x)
  else from_parts (m_days x + dur_days d) n (ofs x).

(** DateTime>>- with a Duration, kernel/AnsiDates.st:255-280. *)
Definition minus (x : moment) (d : Z) : moment :=
  let n := secs x - Z.rem d 86400 in
  if n <? 0 then from_parts (m_days x - dur_days d - 1) (n + 86400) (ofs x)
  else from_parts (m_days x - dur_days d) n (ofs x).

(** asUTC, kernel/AnsiDates.st:379-397. *)
Definition as_utc (x : moment) : moment :=
  if ofs x =? 0 then x
  else let n := secs x - ofs x in
    if n <? 0 then from_parts (m_days x + dur_days (ofs x) - 1) (n + 86400) 0
    else from_parts (m_days x + dur_days (ofs x)) n 0.

(** The methods below send themselves again after asUTC when the offsets differ
    (kernel/AnsiDates.st:215, 225, 263-264); both offsets are zero then. *)
Definition same_zone {A} (f : moment -> moment -> A) (x y : moment) : A :=
  if ofs x =? ofs y then f x y else f (as_utc x) (as_utc y).
(** DateTime>>- with a DateTime, kernel/AnsiDates.st:255-280. *)
Definition apart (x y : moment) : Z :=
  same_zone (fun x y =>
    let n := secs x - secs y in
    if n <? 0 then dur_from_parts (m_days x - m_days y - 1) (n + 86400)
    else dur_from_parts (m_days x - m_days y) n) x y.
(** DateTime>><, kernel/AnsiDates.st:211-218, with < and = of Date, kernel/Date.st:373-385. *)
Definition before (x y : moment) : bool :=
  same_zone (fun x y => (m_days x <? m_days y) || ((m_days x =? m_days y) && (secs x <? secs y))) x y.
(** DateTime>>=, kernel/AnsiDates.st:220-227. *)
Definition equal (x y : moment) : bool :=
  same_zone (fun x y => (m_days x =? m_days y) && (secs x =? secs y)) x y.
(** DateTime>>hash, kernel/AnsiDates.st:229-234, with hash of Date,
    kernel/Date.st:387-392. *)
Definition hash (x : moment) : Z := m_days x * 37 + (secs x - dur_seconds (ofs x)).

(** >, <=, >=, min: and max:, kernel/Magnitude.st:55-95. *)
Definition after (x y : moment) : bool := before y x.
Definition at_most (x y : moment) : bool := negb (before y x).
Definition at_least (x y : moment) : bool := negb (before x y).
Definition earliest (x y : moment) : moment := if before x y then x else y.
Definition latest (x y : moment) : moment := if after x y then x else y.

(** offset:, kernel/AnsiDates.st:408-417. *)
Definition with_offset (x : moment) (o : Z) : moment :=
  if o =? ofs x then x else mkM (m_date x) (secs x) o.
(** hour, minute, second, kernel/AnsiDates.st:297-339. *)
Definition hour (x : moment) : Z := secs x / 3600.
Definition minute (x : moment) : Z := secs x / 60 mod 60.
Definition second (x : moment) : Z := secs x mod 60.

(** Date>>+, kernel/Date.st:402-411: a Date or a DateTime. *)
Definition date_plus (x : date) (d : Z) : date + moment :=
  if dur_seconds d =? 0 then inl (from_days (days x + dur_days d))
  else inr (from_parts (days x + dur_days d) (dur_seconds d) 0).

(** Time class>>fromSeconds: and setSeconds:, kernel/Time.st:184-190, 430-433. *)
Definition time_of (s : Z) : Z := s mod 86400.
