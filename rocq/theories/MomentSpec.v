(** What DateTimes and Durations stand for. *)
From Verif Require Import Base Dates Moment.
Local Open Scope Z_scope.

(** The instant a DateTime denotes, in seconds from midnight UTC of 1 January 1901: the wall
    clock shows the instant shifted by the offset. *)
Definition instant (x : moment) : Z := days (m_date x) * 86400 + secs x - ofs x.
(** A DateTime that came from the calendar: a time within the day, and a date whose parts are
    those of its number of days. *)
Definition wf (x : moment) : Prop := 0 <= secs x < 86400 /\ m_date x = from_days (days (m_date x)).
(** An offset of less than one day; real ones are. *)
Definition small (x : moment) : Prop := - 86400 < ofs x < 86400.
(** The sign of a number agrees with that of another. *)
Definition agrees (a s : Z) : Prop := (0 <= s -> 0 <= a) /\ (s <= 0 -> a <= 0).
