(** C131: DateTimes and Durations. *)
From Verif Require Import Base Dates DatesSpec Moment MomentSpec MomentProofs.
Local Open Scope Z_scope.

(** Adding a Duration, of either sign, moves the instant by it and keeps the offset. *)
Theorem C131_plus : forall x d,
  instant (plus x d) = instant x + d /\ ofs (plus x d) = ofs x /\ wf (plus x d).
Proof. exact plus_ok. Qed.
Print Assumptions C131_plus.
Example C131_plus_ex : plus (from_parts 0 86399 3600) (-172800) = from_parts (-2) 86399 3600.
Proof. vm_compute. reflexivity. Qed.

Theorem C131_minus : forall x d,
  instant (minus x d) = instant x - d /\ ofs (minus x d) = ofs x /\ wf (minus x d).
Proof. exact minus_ok. Qed.
Print Assumptions C131_minus.
Example C131_minus_ex : minus (from_parts 0 10 0) 20 = from_parts (-1) 86390 0.
Proof. vm_compute. reflexivity. Qed.

(** Subtracting undoes adding. *)
Theorem C131_back : forall x d, wf x -> minus (plus x d) d = x /\ plus (minus x d) d = x.
Proof.
  intros x d W. destruct (plus_ok x d) as (A & B & C), (minus_ok x d) as (A' & B' & C').
  destruct (minus_ok (plus x d) d) as (A1 & B1 & C1), (plus_ok (minus x d) d) as (A2 & B2 & C2).
  split; apply wf_eq; auto; lia.
Qed.
Print Assumptions C131_back.
Example C131_back_ex : wf (from_parts 40000 7200 (-18000)).
Proof. exact (proj2 (proj2 (from_parts_ok 40000 7200 (-18000)))). Qed.

(** The difference of two DateTimes is the time between their instants, whatever the offsets
    (of less than a day, or equal). *)
Theorem C131_difference : forall x y, wf x -> wf y -> ofs x = ofs y \/ (small x /\ small y) ->
  apart x y = instant x - instant y.
Proof. exact apart_ok. Qed.
Print Assumptions C131_difference.
Example C131_difference_ex : apart (from_parts 10 0 (-18000)) (from_parts 10 0 3600) = 21600.
Proof. vm_compute. reflexivity. Qed.

(** [x + (y - x)] is the instant of [y]. *)
Theorem C131_span : forall x y, wf x -> wf y -> small x -> small y -> equal (plus x (apart y x)) y = true.
Proof.
  intros x y W W' S S'. destruct (plus_ok x (apart y x)) as (A & B & C).
  rewrite equal_ok; [|exact C|exact W'|right; split; [apply small_plus; exact S|exact S']].
  rewrite A, apart_ok by auto. apply Z.eqb_eq. lia.
Qed.
Print Assumptions C131_span.
Example C131_span_ex : small (from_parts 10 0 (-18000)) /\ small (from_parts 10 0 3600) /\
  plus (from_parts 10 0 (-18000)) (apart (from_parts 10 0 3600) (from_parts 10 0 (-18000))) = from_parts 9 64800 (-18000).
Proof. vm_compute. repeat split; congruence. Qed.

(** Comparisons are those of the instants. *)
Theorem C131_order : forall x y, wf x -> wf y -> ofs x = ofs y \/ (small x /\ small y) ->
  before x y = (instant x <? instant y) /\ after x y = (instant y <? instant x) /\
  at_most x y = (instant x <=? instant y) /\ at_least x y = (instant y <=? instant x) /\
  equal x y = (instant x =? instant y).
Proof.
  intros x y W W' O.
  assert (O' : ofs y = ofs x \/ (small y /\ small x)) by (destruct O as [O|[O O']]; auto).
  unfold after, at_most, at_least. rewrite (before_ok x y W W' O), (before_ok y x W' W O'), (equal_ok x y W W' O).
  repeat split; lia.
Qed.
Print Assumptions C131_order.
Example C131_order_ex : before (from_parts 10 43200 3600) (from_parts 10 43200 0) = true /\
  equal (from_parts 10 43200 3600) (from_parts 10 39600 0) = true.
Proof. vm_compute. auto. Qed.

Theorem C131_extremes : forall x y, wf x -> wf y -> ofs x = ofs y \/ (small x /\ small y) ->
  instant (earliest x y) = Z.min (instant x) (instant y) /\ instant (latest x y) = Z.max (instant x) (instant y).
Proof.
  intros x y W W' O.
  assert (O' : ofs y = ofs x \/ (small y /\ small x)) by (destruct O as [O|[O O']]; auto).
  unfold earliest, latest, after. rewrite (before_ok x y W W' O), (before_ok y x W' W O').
  destruct (Z.ltb_spec (instant x) (instant y)), (Z.ltb_spec (instant y) (instant x)); lia.
Qed.
Print Assumptions C131_extremes.
Example C131_extremes_ex : latest (from_parts 10 43200 3600) (from_parts 10 43200 0) = from_parts 10 43200 0.
Proof. vm_compute. reflexivity. Qed.

(** The DateTime in UTC is the same instant. *)
Theorem C131_utc : forall x, wf x -> small x -> instant (as_utc x) = instant x /\ ofs (as_utc x) = 0 /\ wf (as_utc x).
Proof. exact as_utc_ok. Qed.
Print Assumptions C131_utc.
Example C131_utc_ex : as_utc (from_parts 10 1800 3600) = from_parts 9 84600 0.
Proof. vm_compute. reflexivity. Qed.

(** The parts of a Duration have the sign of the Duration, are within their ranges and give it
    back (the expression that storeOn: writes). *)
Theorem C131_parts : forall s,
  ((dur_days s * 24 + dur_hours s) * 60 + dur_minutes s) * 60 + dur_seconds s = s /\
  Z.abs (dur_hours s) < 24 /\ Z.abs (dur_minutes s) < 60 /\ Z.abs (dur_seconds s) < 60 /\
  agrees (dur_days s) s /\ agrees (dur_hours s) s /\ agrees (dur_minutes s) s /\ agrees (dur_seconds s) s.
Proof. intros s. split; [exact (recompose s)|exact (parts_bounds s)]. Qed.
Print Assumptions C131_parts.
Example C131_parts_ex : (dur_days (-90061), dur_hours (-90061), dur_minutes (-90061), dur_seconds (-90061)) = (-1, -1, -1, -1).
Proof. vm_compute. reflexivity. Qed.

(** A DateTime made from parts has them, and the expression that storeOn: writes gives it back. *)
Theorem C131_made : forall y mo d h mi s o, valid (y, mo, d) -> 0 <= h < 24 -> 0 <= mi < 60 -> 0 <= s < 60 ->
  exists x, new_moment y mo d h mi s o = Ok x /\ wf x /\ year (m_date x) = y /\ month (m_date x) = mo /\ day (m_date x) = d /\
    hour x = h /\ minute x = mi /\ second x = s /\ ofs x = o.
Proof. intros y mo d h mi s o V. exact (new_moment_ok y mo d h mi s o (proj1 V) V). Qed.
Print Assumptions C131_made.
Example C131_made_ex : valid (2000, 2, 29).
Proof. vm_compute. repeat split; congruence. Qed.

Theorem C131_store : forall x, wf x ->
  new_moment (year (m_date x)) (month (m_date x)) (day (m_date x)) (hour x) (minute x) (second x) (ofs x) = Ok x.
Proof. exact store_ok. Qed.
Print Assumptions C131_store.
Example C131_store_ex : wf (from_parts 36217 86399 (-18000)).
Proof. exact (proj2 (proj2 (from_parts_ok 36217 86399 (-18000)))). Qed.

(** Changing the offset keeps the wall clock. *)
Theorem C131_offset : forall x o, instant (with_offset x o) = instant x + ofs x - o /\
  ofs (with_offset x o) = o /\ (wf x -> wf (with_offset x o)).
Proof. exact with_offset_ok. Qed.
Print Assumptions C131_offset.
Example C131_offset_ex : with_offset (from_parts 10 1800 3600) 0 = from_parts 10 1800 0.
Proof. vm_compute. reflexivity. Qed.

(** Adding whole days to a Date. *)
Theorem C131_date_days : forall x k, date_plus x (k * 86400) = inl (from_days (days x + k)).
Proof. exact date_plus_days. Qed.
Print Assumptions C131_date_days.
Example C131_date_days_ex : date_plus (from_days 36217) (1 * 86400) = inl (from_days 36218) /\ month (from_days 36218) = 2 /\ day (from_days 36218) = 29.
Proof. vm_compute. auto. Qed.

(** Adding a Duration that has seconds answers a DateTime, in UTC, with the days and the seconds
    field of the Duration. *)
Theorem C131_date_seconds : forall x d, Z.rem d 60 <> 0 -> exists y, date_plus x d = inr y /\
  instant y = (days x + Z.quot d 86400) * 86400 + Z.rem d 60 /\ ofs y = 0 /\ wf y.
Proof. exact date_plus_seconds. Qed.
Print Assumptions C131_date_seconds.
Example C131_date_seconds_ex : Z.rem (86400 + 7) 60 <> 0 /\ date_plus (from_days 36217) (86400 + 7) = inr (from_parts 36218 7 0).
Proof. split; [vm_compute; congruence|]. vm_compute. reflexivity. Qed.

(** Equal DateTimes may have different hashes: 12:00 at +01:00 and 11:00 UTC. *)
Theorem C131_hash_refuted : exists x y, wf x /\ wf y /\ small x /\ small y /\ equal x y = true /\ hash x <> hash y.
Proof.
  exists (from_parts 36216 43200 3600), (from_parts 36216 39600 0).
  repeat split; vm_compute; congruence.
Qed.
Print Assumptions C131_hash_refuted.

(** With an offset of a day or more two DateTimes that denote the same instant differ, and their
    difference is not the time between them. *)
Theorem C131_large_offset_refuted : exists x y, wf x /\ wf y /\ instant x = instant y /\
  equal x y = false /\ apart x y <> 0.
Proof.
  exists (from_parts 10 0 86400), (from_parts 9 0 0).
  repeat split; vm_compute; congruence.
Qed.
Print Assumptions C131_large_offset_refuted.

(** Adding an hour to a Date answers the same Date. *)
Theorem C131_date_refuted : exists x d, 0 < d /\ date_plus x d = inl x.
Proof. exists (from_days 36217), 3600. split; [lia|]. vm_compute. reflexivity. Qed.
Print Assumptions C131_date_refuted.

(** Adding one day, one hour and one second to a Date loses the hour. *)
Theorem C131_date_time_refuted : exists x d y, date_plus x d = inr y /\ instant y <> days x * 86400 + d.
Proof. exists (from_days 36217), 90001. eexists. split; [vm_compute; reflexivity|]. vm_compute. congruence. Qed.
Print Assumptions C131_date_time_refuted.

(** The parts given are not carried: 24:00:00 is before 00:00:00 of the next day, although both
    are the same instant. *)
Theorem C131_carry_refuted : exists x y, new_moment 2000 1 1 24 0 0 0 = Ok x /\ new_moment 2000 1 2 0 0 0 0 = Ok y /\
  instant x = instant y /\ equal x y = false /\ before x y = true.
Proof.
  eexists. eexists. split; [vm_compute; reflexivity|]. split; [vm_compute; reflexivity|]. vm_compute. auto.
Qed.
Print Assumptions C131_carry_refuted.
