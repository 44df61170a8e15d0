(** Proofs about DateTimes and Durations. *)
From Verif Require Import Base Dates DatesSpec DatesProofs DatesProps Moment MomentSpec.
Local Open Scope Z_scope.
Local Opaque from_days.

Lemma days_from d : days (from_days d) = d.
Proof. reflexivity. Qed.

Lemma from_parts_ok d s o : let x := from_parts d s o in
  m_days x * 86400 + secs x = d * 86400 + s /\ ofs x = o /\ wf x.
Proof.
  unfold from_parts, m_days, wf. cbn [m_date secs ofs]. rewrite days_from.
  split; [lia|]. split; [reflexivity|]. split; [lia|reflexivity].
Qed.

Lemma from_parts_instant d s o : instant (from_parts d s o) = d * 86400 + s - o.
Proof. destruct (from_parts_ok d s o) as (A & B & _). unfold instant. unfold m_days in A. lia. Qed.

Lemma quot_rem s : s = Z.quot s 86400 * 86400 + Z.rem s 86400.
Proof. pose proof (Z.quot_rem' s 86400). lia. Qed.

Lemma plus_ok x d : instant (plus x d) = instant x + d /\ ofs (plus x d) = ofs x /\ wf (plus x d).
Proof.
  unfold plus. pose proof (quot_rem d) as E.
  destruct (_ <? _); (split; [rewrite from_parts_instant; unfold instant, m_days, dur_days; lia|]; split; [reflexivity|]; apply from_parts_ok).
Qed.

Lemma minus_ok x d : instant (minus x d) = instant x - d /\ ofs (minus x d) = ofs x /\ wf (minus x d).
Proof.
  unfold minus. pose proof (quot_rem d) as E.
  destruct (_ <? _); (split; [rewrite from_parts_instant; unfold instant, m_days, dur_days; lia|]; split; [reflexivity|]; apply from_parts_ok).
Qed.

(** A well-formed DateTime is known from its instant and its offset. *)
Lemma wf_eq x y : wf x -> wf y -> instant x = instant y -> ofs x = ofs y -> x = y.
Proof.
  destruct x as [d s o], y as [d' s' o']. unfold wf, instant. cbn [m_date secs ofs].
  intros (A & B) (A' & B') I ->.
  assert (days d = days d') by lia. assert (s = s') by lia. subst. rewrite B, B', H. reflexivity.
Qed.

Lemma dur_days_small o : -86400 < o < 86400 -> dur_days o = 0.
Proof. intros H. unfold dur_days. pose proof (Z.quot_rem' o 86400). pose proof (Z.rem_bound_abs o 86400). 
  apply Z.quot_small_iff; lia. Qed.

Lemma as_utc_ok x : wf x -> small x -> instant (as_utc x) = instant x /\ ofs (as_utc x) = 0 /\ wf (as_utc x).
Proof.
  intros W S. unfold as_utc. destruct (Z.eqb_spec (ofs x) 0) as [O|O]; [auto|].
  rewrite (dur_days_small _ S).
  destruct (_ <? _); (split; [rewrite from_parts_instant; unfold instant, m_days; lia|]; split; [reflexivity|]; apply from_parts_ok).
Qed.

Lemma same_zone_ok {A} (f g : moment -> moment -> A) x y :
  (forall x y, wf x -> wf y -> ofs x = ofs y -> f x y = g x y) ->
  (forall x y x' y', instant x = instant x' -> instant y = instant y' -> g x y = g x' y') ->
  wf x -> wf y -> ofs x = ofs y \/ (small x /\ small y) -> same_zone f x y = g x y.
Proof.
  intros F G W W' O. unfold same_zone. destruct (Z.eqb_spec (ofs x) (ofs y)) as [E|E]; [auto|].
  destruct O as [O|(S & S')]; [contradiction|].
  destruct (as_utc_ok x W S) as (I & Z1 & V), (as_utc_ok y W' S') as (I' & Z2 & V').
  rewrite F; [|exact V|exact V'|congruence]. apply G; auto.
Qed.

Lemma apart_ok x y : wf x -> wf y -> ofs x = ofs y \/ (small x /\ small y) -> apart x y = instant x - instant y.
Proof.
  intros. unfold apart. apply (same_zone_ok _ (fun x y => instant x - instant y)); auto; [|congruence].
  clear. intros x y _ _ E. unfold dur_from_parts, instant, m_days. destruct (_ <? _); lia.
Qed.

Lemma before_ok x y : wf x -> wf y -> ofs x = ofs y \/ (small x /\ small y) -> before x y = (instant x <? instant y).
Proof.
  intros. unfold before. apply (same_zone_ok _ (fun x y => instant x <? instant y)); auto; [|congruence].
  clear. intros x y (A & _) (B & _) E. unfold instant, m_days.
  generalize dependent (days (m_date x)). generalize dependent (days (m_date y)). intros. lia.
Qed.

Lemma equal_ok x y : wf x -> wf y -> ofs x = ofs y \/ (small x /\ small y) -> equal x y = (instant x =? instant y).
Proof.
  intros. unfold equal. apply (same_zone_ok _ (fun x y => instant x =? instant y)); auto; [|congruence].
  clear. intros x y (A & _) (B & _) E. unfold instant, m_days.
  generalize dependent (days (m_date x)). generalize dependent (days (m_date y)). intros. lia.
Qed.

Lemma small_plus x d : small x -> small (plus x d).
Proof. unfold small. rewrite (proj1 (proj2 (plus_ok x d))). auto. Qed.

(** Durations. *)
Lemma nonneg_parts s : 0 <= s ->
  dur_days s = s / 86400 /\ dur_hours s = s / 3600 mod 24 /\ dur_minutes s = s / 60 mod 60 /\ dur_seconds s = s mod 60.
Proof.
  intros H. unfold dur_days, dur_hours, dur_minutes, dur_seconds.
  rewrite !Z.quot_div_nonneg by lia. rewrite !Z.rem_mod_nonneg by lia. auto.
Qed.

Lemma neg_parts s : dur_days (- s) = - dur_days s /\ dur_hours (- s) = - dur_hours s /\
  dur_minutes (- s) = - dur_minutes s /\ dur_seconds (- s) = - dur_seconds s.
Proof.
  unfold dur_days, dur_hours, dur_minutes, dur_seconds.
  rewrite !Z.quot_opp_l by lia. rewrite !Z.rem_opp_l by lia. auto.
Qed.

Lemma recompose s : duration (dur_days s) (dur_hours s) (dur_minutes s) (dur_seconds s) = s.
Proof.
  assert (P : forall s, 0 <= s -> duration (dur_days s) (dur_hours s) (dur_minutes s) (dur_seconds s) = s).
  { clear. intros s H. destruct (nonneg_parts s H) as (-> & -> & -> & ->). unfold duration. lia. }
  destruct (Z.le_gt_cases 0 s) as [H|H]; [auto|].
  specialize (P (- s) ltac:(lia)). destruct (neg_parts s) as (A & B & C & D). rewrite A, B, C, D in P.
  unfold duration in *. lia.
Qed.

Lemma parts_bounds s : Z.abs (dur_hours s) < 24 /\ Z.abs (dur_minutes s) < 60 /\ Z.abs (dur_seconds s) < 60 /\
  agrees (dur_days s) s /\ agrees (dur_hours s) s /\ agrees (dur_minutes s) s /\ agrees (dur_seconds s) s.
Proof.
  destruct (Z.le_gt_cases 0 s) as [H|H].
  - destruct (nonneg_parts s H) as (-> & -> & -> & ->). unfold agrees. lia.
  - destruct (neg_parts s) as (A & B & C & D). destruct (nonneg_parts (- s)) as (A' & B' & C' & D'); [lia|].
    rewrite A' in A. rewrite B' in B. rewrite C' in C. rewrite D' in D. unfold agrees. lia.
Qed.

(** The parts of a DateTime. *)
Lemma wall_ok x : wf x -> 0 <= hour x < 24 /\ 0 <= minute x < 60 /\ 0 <= second x < 60 /\
  (hour x * 60 + minute x) * 60 + second x = secs x.
Proof. intros (A & _). unfold hour, minute, second. lia. Qed.

Lemma new_date_parts d : new_day_month_year (day (from_days d)) (month (from_days d)) (year (from_days d)) = Ok (from_days d).
Proof. destruct (C32_round_trip d) as (x & E & ->). exact E. Qed.

Lemma store_ok x : wf x ->
  new_moment (year (m_date x)) (month (m_date x)) (day (m_date x)) (hour x) (minute x) (second x) (ofs x) = Ok x.
Proof.
  intros W. unfold new_moment. destruct W as (A & B) eqn:E. rewrite B at 1 2 3. rewrite new_date_parts. cbn [obind].
  rewrite (proj2 (proj2 (proj2 (wall_ok x W)))). destruct x as [d s o]. cbn [m_date secs ofs] in *. rewrite <- B. reflexivity.
Qed.

Lemma new_moment_ok y mo d h mi s o : 1 <= mo <= 12 -> valid (y, mo, d) -> 0 <= h < 24 -> 0 <= mi < 60 -> 0 <= s < 60 ->
  exists x, new_moment y mo d h mi s o = Ok x /\ wf x /\ year (m_date x) = y /\ month (m_date x) = mo /\ day (m_date x) = d /\
    hour x = h /\ minute x = mi /\ second x = s /\ ofs x = o.
Proof.
  intros M V H I S. destruct (new_date y mo d M) as (x & E & D & F & P).
  unfold new_moment. rewrite E. cbn [obind]. eexists. split; [reflexivity|].
  specialize (P V). assert (G : x = from_days (days x)).
  { destruct x as [a b c e], (from_days a) as [a' b' c' e'] eqn:G. cbn [days] in *.
    assert (days (from_days a) = a') by (rewrite G; reflexivity). rewrite days_from in H0. subst a'.
    rewrite G in F. unfold parts in F. cbn [year month day] in F. inversion F. rewrite G. reflexivity. }
  unfold parts in P. inversion P. unfold wf, hour, minute, second. cbn [m_date secs ofs].
  split; [split; [lia|exact G]|]. repeat match goal with |- _ /\ _ => split end; lia || reflexivity.
Qed.

(** What the DateTimes of two offsets less than a day apart share. *)
Lemma with_offset_ok x o : instant (with_offset x o) = instant x + ofs x - o /\ ofs (with_offset x o) = o /\
  (wf x -> wf (with_offset x o)).
Proof.
  unfold with_offset. destruct (Z.eqb_spec o (ofs x)) as [->|N]; unfold instant, wf; cbn [m_date secs ofs]; split; try lia; auto.
Qed.

Lemma date_plus_days x k : date_plus x (k * 86400) = inl (from_days (days x + k)).
Proof.
  unfold date_plus, dur_seconds, dur_days. replace (k * 86400) with (k * 1440 * 60) by lia. rewrite Z.rem_mul by lia.
  cbn [Z.eqb]. replace (k * 1440 * 60) with (k * 86400) by lia. rewrite Z.quot_mul by lia. reflexivity.
Qed.

Lemma date_plus_seconds x d : Z.rem d 60 <> 0 -> exists y, date_plus x d = inr y /\
  instant y = (days x + Z.quot d 86400) * 86400 + Z.rem d 60 /\ ofs y = 0 /\ wf y.
Proof.
  intros H. unfold date_plus, dur_seconds, dur_days. apply Z.eqb_neq in H. rewrite H. eexists. split; [reflexivity|].
  destruct (from_parts_ok (days x + Z.quot d 86400) (Z.rem d 60) 0) as (P & Q & W). cbn zeta in *.
  unfold instant. unfold m_days in P. split; [lia|]. split; [exact Q|exact W].
Qed.
