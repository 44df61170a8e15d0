(** C32: Date. *)
From Verif Require Import Base Dates DatesSpec DatesProofs.
Local Open Scope Z_scope.

(** For every integer d, fromDays: answers the Gregorian date d days after 1 January
    1901: the only one, by counting days with the rules of the calendar. *)
Theorem C32_calendar : forall d x,
  nth_date d x <-> x = (year (from_days d), month (from_days d), day (from_days d)).
Proof.
  intros d x. split.
  - intros H. apply (nth_date_unique d x H).
  - intros ->. apply nth_date_total.
Qed.
Print Assumptions C32_calendar.

Theorem C32_valid : forall d, valid (year (from_days d), month (from_days d), day (from_days d)).
Proof. exact from_days_valid. Qed.
Print Assumptions C32_valid.

Theorem C32_successive : forall d,
  (year (from_days (d + 1)), month (from_days (d + 1)), day (from_days (d + 1))) =
  next_day (year (from_days d), month (from_days d), day (from_days d)).
Proof. exact from_days_next. Qed.
Print Assumptions C32_successive.

(** newDay:monthIndex:year: of a date of the calendar is that date, with its day count. *)
Theorem C32_new : forall y m d, valid (y, m, d) ->
  exists x, new_day_month_year d m y = Ok x /\ (year x, month x, day x) = (y, m, d) /\
    nth_date (days x) (y, m, d).
Proof.
  intros y m d V. destruct (new_date y m d (proj1 V)) as (x & E & D & _ & P).
  exists x. split; [exact E|]. split; [exact (P V)|]. rewrite D. apply until_spec. exact V.
Qed.
Print Assumptions C32_new.

(** The day count of a date given by its parts, and back. *)
Theorem C32_round_trip : forall d, exists x,
  new_day_month_year (day (from_days d)) (month (from_days d)) (year (from_days d)) = Ok x /\ x = from_days d.
Proof.
  intros d. pose proof (from_days_valid d) as V. unfold parts in V.
  destruct (new_date (year (from_days d)) (month (from_days d)) (day (from_days d)) (proj1 V)) as (x & E & D & _ & P).
  exists x. split; [exact E|].
  specialize (P V). rewrite (until_round d) in D.
  destruct x as [a b c e], (from_days d) as [a' b' c' e'] eqn:F. cbn in D, P. inversion P; subst.
  assert (days (from_days d) = a') by (rewrite F; reflexivity). cbn in *. subst. reflexivity.
Qed.
Print Assumptions C32_round_trip.

(** A day number outside the month counts from the first of it. *)
Theorem C32_overflow : forall y m d, 1 <= m <= 12 ->
  exists x, new_day_month_year d m y = Ok x /\
    nth_date (days x) (year x, month x, day x) /\
    exists first, nth_date first (y, m, 1) /\ days x = first + (d - 1).
Proof.
  intros y m d M. destruct (new_date y m d M) as (x & E & D & P & _). exists x. split; [exact E|].
  split; [fold (parts x); rewrite P; apply nth_date_total|].
  exists (1 + days_until_month m y). split; [|lia]. apply until_spec. unfold valid.
  pose proof (month_length_ge y m). lia.
Qed.
Print Assumptions C32_overflow.

(** dayOfYear, daysLeftInYear, daysInYear, daysInMonth, dayOfWeek. *)
Theorem C32_year : forall d, let x := from_days d in
  day_of_year x = days_before_month (year x) (month x) + day x /\
  day_of_year x + days_left_in_year x = year_length (year x) /\
  days_in_year (year x) = year_length (year x).
Proof.
  intros d. cbn zeta. split; [apply year_round|]. split; [|apply days_in_year_ok].
  unfold day_of_year, days_left_in_year. rewrite year_as_days_next. lia.
Qed.
Print Assumptions C32_year.

Theorem C32_month : forall d, let x := from_days d in
  days_in_month_index (month x) (year x) = Ok (month_length (year x) (month x)) /\
  (exists f, first_day_of_month x = f /\ (year f, month f, day f) = (year x, month x, 1)) /\
  (exists l, last_day_of_month x = Ok l /\
     (year l, month l, day l) = (year x, month x, month_length (year x) (month x))).
Proof.
  intros d. cbn zeta. pose proof (from_days_valid d) as V. unfold parts in V. destruct V as (M & D).
  pose proof (until_round d) as U. cbn zeta in U.
  pose proof (month_length_ge (year (from_days d)) (month (from_days d))) as G.
  split; [apply days_in_month_ok; auto|]. split.
  - eexists. split; [reflexivity|]. unfold first_day_of_month.
    replace (days (from_days d) - (day (from_days d) - 1)) with
      (1 + days_until_month (month (from_days d)) (year (from_days d))) by (change (days (from_days d)) with d; lia).
    apply until_parts. unfold valid. lia.
  - unfold last_day_of_month, days_left_in_month. rewrite days_in_month_ok by auto. cbn [obind].
    eexists. split; [reflexivity|].
    replace (days (from_days d) + (month_length (year (from_days d)) (month (from_days d)) - day (from_days d))) with
      (month_length (year (from_days d)) (month (from_days d)) + days_until_month (month (from_days d)) (year (from_days d)))
      by (change (days (from_days d)) with d; lia).
    apply until_parts. unfold valid. lia.
Qed.
Print Assumptions C32_month.

(** 1 January 1901 was a Tuesday; the days of the week follow each other. *)
Theorem C32_week : forall d,
  day_of_week (from_days 0) = 2 /\
  day_of_week (from_days (d + 1)) =
    (if day_of_week (from_days d) =? 7 then 1 else day_of_week (from_days d) + 1).
Proof. intros d. split; [reflexivity|apply week]. Qed.
Print Assumptions C32_week.

Example C32_ex :
  from_days 36218 = mkD 36218 29 2 2000 /\ from_days (-109561) = mkD (-109561) 12 1 1601
  /\ valid (2000, 2, 29) /\ new_day_month_year 31 2 1999 = Ok (from_days 35855)
  /\ day_of_week (from_days 36218) = 2.
Proof. unfold valid. vm_compute. repeat split; discriminate. Qed.
