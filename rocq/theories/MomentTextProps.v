(** C132: what DateTimes, Dates, Times and Durations print is read back. *)
From Coq Require Import Ascii String.
From Verif Require Import Base Dates Moment MomentSpec MomentProofs MomentText MomentTextSpec MomentTextProofs.
Local Open Scope Z_scope.

(** Durations of either sign, followed by a blank or by nothing. *)
Theorem C132_duration : forall s r, blank_next r -> read_duration (print_duration s ++ r) = Ok (s, r).
Proof. exact duration_text. Qed.
Print Assumptions C132_duration.
Example C132_duration_ex : print_duration (-90061) = list_ascii_of_string "-1:01:01:01" /\ blank_next [" "%char].
Proof. split; [vm_compute; reflexivity|left; reflexivity]. Qed.

(** Times; one character after the text is taken too. *)
Theorem C132_time : forall s r, 0 <= s < 86400 -> not_digit_next r -> read_time (print_time s ++ r) = (s, tl r).
Proof. exact time_text. Qed.
Print Assumptions C132_time.
Example C132_time_ex : print_time 3661 = list_ascii_of_string "1:01:01" /\ not_digit_next [")"%char].
Proof. split; [vm_compute; reflexivity|]. cbn. intuition discriminate. Qed.

(** Dates of all years, also negative; one character after the text is taken too. *)
Theorem C132_date : forall d r, not_digit_next r ->
  exists t, print_date (from_days d) = Ok t /\ read_date (t ++ r) = Ok (from_days d, tl r).
Proof. exact date_text. Qed.
Print Assumptions C132_date.
Example C132_date_ex : print_date (from_days 36218) = Ok (list_ascii_of_string "29-Feb-2000") /\
  print_date (from_days (-900000)) = Ok (list_ascii_of_string "19-Nov--564").
Proof. vm_compute. auto. Qed.

(** DateTimes of the years before 0 and after 31, with an offset of less than a day and not both
    negative and with seconds. *)
Theorem C132_datetime : forall x r, wf x -> small x -> 0 <= ofs x \/ dur_seconds (ofs x) = 0 ->
  year (m_date x) < 0 \/ 31 < year (m_date x) -> blank_next r ->
  exists t, print_moment x = Ok t /\ read_moment (t ++ r) = Ok (x, r).
Proof. exact moment_text. Qed.
Print Assumptions C132_datetime.
Example C132_datetime_ex : let x := from_parts 36218 43205 (-18000) in
  print_moment x = Ok (list_ascii_of_string " 2000-02-29T12:00:05-05:00") /\ wf x /\ small x /\ dur_seconds (ofs x) = 0 /\ 31 < year (m_date x).
Proof. split; [vm_compute; reflexivity|]. split; [exact (proj2 (proj2 (from_parts_ok _ _ _)))|]. vm_compute. auto. Qed.

(** A Date alone is read as its midnight in UTC when what follows is no time and no offset. *)
Theorem C132_midnight : forall d c r, is_digit c = false -> is_sep c = false -> ~ In c ["T"; "+"; "-"]%char ->
  exists t, print_date (from_days d) = Ok t /\ read_moment (t ++ " "%char :: c :: r) = Ok (from_parts d 0 0, c :: r).
Proof. exact midnight_text. Qed.
Print Assumptions C132_midnight.
Example C132_midnight_ex : read_moment (list_ascii_of_string "29-Feb-2000 (x)") = Ok (from_parts 36218 0 0, list_ascii_of_string "(x)").
Proof. vm_compute. reflexivity. Qed.

(** The first years are read as months or days: 4 March 12 is read as 3 December 4. *)
Theorem C132_year_refuted : exists x t y, wf x /\ ofs x = 0 /\ print_moment x = Ok t /\ read_moment t = Ok (y, []) /\ equal x y = false.
Proof.
  exists (from_parts (-689880) 0 0). eexists. eexists. split; [exact (proj2 (proj2 (from_parts_ok _ _ _)))|]. split; [reflexivity|].
  split; [vm_compute; reflexivity|]. split; [vm_compute; reflexivity|]. vm_compute. reflexivity.
Qed.
Print Assumptions C132_year_refuted.

(** The DateTimes of the year 0 cannot be printed. *)
Theorem C132_year_0_refuted : exists x, wf x /\ year (m_date x) = 0 /\ print_moment x = Err.
Proof. exists (from_parts (-694000) 0 0). split; [exact (proj2 (proj2 (from_parts_ok _ _ _)))|]. vm_compute. auto. Qed.
Print Assumptions C132_year_0_refuted.

(** A negative offset that has seconds is printed as -01:00:-5 and loses them. *)
Theorem C132_offset_refuted : exists x t y s, wf x /\ small x /\ year (m_date x) = 2000 /\ print_moment x = Ok t /\ read_moment t = Ok (y, s) /\
  ofs x <> ofs y.
Proof.
  exists (from_parts 36218 0 (-3605)). eexists. eexists. eexists. split; [exact (proj2 (proj2 (from_parts_ok _ _ _)))|]. split; [vm_compute; auto|].
  split; [vm_compute; reflexivity|]. split; [vm_compute; reflexivity|]. split; [vm_compute; reflexivity|]. vm_compute. congruence.
Qed.
Print Assumptions C132_offset_refuted.

(** A number of hours followed by a colon alone is an error rather than a Duration. *)
Theorem C132_colon_refuted : exists t, read_duration (list_ascii_of_string "12" ++ t) = Err /\ read_time (list_ascii_of_string "12" ++ t) = (43200, []).
Proof. exists [":"%char]. vm_compute. auto. Qed.
Print Assumptions C132_colon_refuted.
