(** Proofs about Date. *)
From Verif Require Import Base Dates DatesSpec.
Local Open Scope Z_scope.

Definition parts (x : date) : ymd := (year x, month x, day x).

Definition shift400 (k : Z) (x : ymd) : ymd := let '(y, m, d) := x in (y + 400 * k, m, d).

Lemma div_shift a b k : b <> 0 -> (a + b * k) / b = a / b + k.
Proof. intros. rewrite (Z.mul_comm b k). apply Z.div_add. auto. Qed.

(** The calendar repeats itself after 400 years, and so does setDays:. *)
Lemma from_days_shift d k : parts (from_days (d + 146097 * k)) = shift400 k (parts (from_days d)).
Proof.
  unfold from_days, parts, shift400. cbn [year month day].
  set (j0 := d + 2483955). set (n := 4 * j0 / 146097).
  replace (d + 146097 * k + 2483955) with (j0 + 146097 * k) by (unfold j0; lia).
  replace (4 * (j0 + 146097 * k)) with (4 * j0 + 146097 * (4 * k)) by lia.
  rewrite div_shift by lia. fold n.
  replace (146097 * (n + 4 * k) + 3) with (146097 * n + 3 + 4 * (146097 * k)) by lia.
  rewrite div_shift by lia.
  replace (j0 + 146097 * k - ((146097 * n + 3) / 4 + 146097 * k)) with (j0 - (146097 * n + 3) / 4) by lia.
  generalize (j0 - (146097 * n + 3) / 4). intros j1. f_equal. f_equal. lia.
Qed.

Lemma mod_shift y k m q : 0 < m -> 400 = m * q -> (y + 400 * k) mod m = y mod m.
Proof. intros M E. rewrite E. replace (y + m * q * k) with (y + (q * k) * m) by lia. apply Z.mod_add. lia. Qed.

Lemma leap_shift y k : leap (y + 400 * k) = leap y.
Proof.
  unfold leap. rewrite (mod_shift y k 4 100), (mod_shift y k 100 4), (mod_shift y k 400 1) by lia. auto.
Qed.

Lemma month_length_shift y k m : month_length (y + 400 * k) m = month_length y m.
Proof. unfold month_length. rewrite leap_shift. auto. Qed.

Lemma next_shift x k : next_day (shift400 k x) = shift400 k (next_day x).
Proof.
  destruct x as [[y m] d]. unfold next_day, shift400. rewrite month_length_shift.
  destruct (d <? month_length y m); auto. destruct (m <? 12); auto. do 2 f_equal. lia.
Qed.

Lemma valid_shift x k : valid (shift400 k x) <-> valid x.
Proof. destruct x as [[y m] d]. unfold valid, shift400. rewrite month_length_shift. tauto. Qed.

(** Every day of one period of 400 years. *)
Definition eq_ymd (a b : ymd) : bool :=
  let '(y, m, d) := a in let '(y', m', d') := b in (y =? y') && (m =? m') && (d =? d').
Definition validb (x : ymd) : bool :=
  let '(y, m, d) := x in (1 <=? m) && (m <=? 12) && (1 <=? d) && (d <=? month_length y m).

Lemma eq_ymd_eq a b : eq_ymd a b = true -> a = b.
Proof.
  destruct a as [[y m] d], b as [[y' m'] d']. unfold eq_ymd. intros H.
  rewrite !andb_true_iff, !Z.eqb_eq in H. destruct H as ((-> & ->) & ->). auto.
Qed.

Lemma validb_valid x : validb x = true -> valid x.
Proof. destruct x as [[y m] d]. unfold validb, valid. intros H. lia. Qed.

Fixpoint all_from (f : Z -> bool) (d : Z) (n : nat) : bool :=
  match n with O => true | S n' => f d && all_from f (d + 1) n' end.

Lemma all_from_spec f n : forall d, all_from f d n = true -> forall x, d <= x < d + Z.of_nat n -> f x = true.
Proof.
  induction n as [|n IH]; intros d H x X; [lia|]. cbn in H. apply andb_true_iff in H as (H1 & H2).
  destruct (Z.eq_dec x d) as [->|N]; auto. apply (IH (d + 1)); auto. lia.
Qed.

Lemma in_period y : exists k r, y = r + 400 * k /\ 0 <= r < 400.
Proof.
  exists (y / 400), (y mod 400). split; [rewrite Z.add_comm; apply Z.div_mod; lia|apply Z.mod_pos_bound; lia].
Qed.

Lemma from_days_epoch : parts (from_days 0) = epoch.
Proof. vm_compute. reflexivity. Qed.

Lemma days_until_shift m y k : days_until_month m (y + 400 * k) = days_until_month m y + 146097 * k.
Proof.
  unfold days_until_month. set (j := Z.quot (m - 14) 12). clearbody j.
  replace ((j + (y + 400 * k) + 4800) * 1461) with ((j + y + 4800) * 1461 + 4 * (146100 * k)) by lia.
  replace (j + (y + 400 * k) + 4900) with (j + y + 4900 + 100 * (4 * k)) by lia.
  rewrite !div_shift by lia.
  replace (((j + y + 4900) / 100 + 4 * k) * 3) with ((j + y + 4900) / 100 * 3 + 4 * (3 * k)) by lia.
  rewrite div_shift by lia. lia.
Qed.

Lemma year_as_days_shift y k : year_as_days (y + 400 * k) = year_as_days y + 146097 * k.
Proof.
  unfold year_as_days.
  replace ((y + 400 * k + 4799) * 1461) with ((y + 4799) * 1461 + 4 * (146100 * k)) by lia.
  replace (y + 400 * k + 4899) with (y + 4899 + 100 * (4 * k)) by lia.
  rewrite !div_shift by lia.
  replace (((y + 4899) / 100 + 4 * k) * 3) with ((y + 4899) / 100 * 3 + 4 * (3 * k)) by lia.
  rewrite div_shift by lia. lia.
Qed.

Lemma days_before_shift y k m : days_before_month (y + 400 * k) m = days_before_month y m.
Proof.
  unfold days_before_month. f_equal. apply map_ext. intros a. apply month_length_shift.
Qed.

Lemma parts_eq x a b c : parts x = (a, b, c) -> year x = a /\ month x = b /\ day x = c.
Proof. unfold parts. intros H. inversion H. auto. Qed.

(** Dates given by their parts. *)
Lemma days_in_year_ok y : days_in_year y = year_length y.
Proof.
  unfold year_length, days_in_year, leap.
  assert (E : exists k r, y = r + 400 * k /\ 0 <= r < 400).
  { exists (y / 400), (y mod 400). split; [rewrite Z.add_comm; apply Z.div_mod; lia|apply Z.mod_pos_bound; lia]. }
  destruct E as (k & r & -> & R).
  assert (C : all_from (fun r => (r + 4800) * 1461 / 4 - (r + 4900) / 100 * 3 / 4
      - (r + 4799) * 1461 / 4 + (r + 4899) / 100 * 3 / 4 =? (if leap r then 366 else 365)) 0 400 = true)
    by (vm_compute; reflexivity).
  pose proof (all_from_spec _ _ _ C r ltac:(lia)) as X. cbn beta in X. apply Z.eqb_eq in X.
  fold (leap (r + 400 * k)). rewrite leap_shift. rewrite <- X. clear C X R.
  replace ((r + 400 * k + 4800) * 1461) with ((r + 4800) * 1461 + 4 * (146100 * k)) by lia.
  replace ((r + 400 * k + 4799) * 1461) with ((r + 4799) * 1461 + 4 * (146100 * k)) by lia.
  replace (r + 400 * k + 4900) with (r + 4900 + 100 * (4 * k)) by lia.
  replace (r + 400 * k + 4899) with (r + 4899 + 100 * (4 * k)) by lia.
  rewrite !div_shift by lia.
  replace (((r + 4900) / 100 + 4 * k) * 3) with ((r + 4900) / 100 * 3 + 4 * (3 * k)) by lia.
  replace (((r + 4899) / 100 + 4 * k) * 3) with ((r + 4899) / 100 * 3 + 4 * (3 * k)) by lia.
  rewrite !div_shift by lia. lia.
Qed.

Lemma days_in_month_ok y m : 1 <= m <= 12 -> days_in_month_index m y = Ok (month_length y m).
Proof.
  intros M. unfold days_in_month_index, month_length. rewrite days_in_year_ok. unfold year_length.
  destruct (Z.eqb_spec m 2); [destruct (leap y); reflexivity|].
  assert (m = 1 \/ m = 3 \/ m = 4 \/ m = 5 \/ m = 6 \/ m = 7 \/ m = 8 \/ m = 9 \/ m = 10 \/ m = 11 \/ m = 12) as H by lia.
  repeat (destruct H as [-> | H]; [reflexivity|]). subst m. reflexivity.
Qed.

Lemma month_length_le y m : month_length y m <= 31.
Proof.
  unfold month_length. destruct (m =? 2); [destruct (leap y); lia|].
  destruct ((m =? 4) || (m =? 6) || (m =? 9) || (m =? 11)); lia.
Qed.

(** Two days between which setDays: computes the same century, year and month. *)
Definition raw (d : Z) : Z * Z * Z :=
  let j0 := d + 2483955 in
  let n := 4 * j0 / 146097 in
  let j1 := j0 - (146097 * n + 3) / 4 in
  let y := 4000 * (j1 + 1) / 1461001 in
  let j2 := j1 - 1461 * y / 4 + 31 in
  (n, y, 80 * j2 / 2447).

Lemma from_raw a x n y m : raw a = (n, y, m) -> raw x = (n, y, m) ->
  year (from_days x) = year (from_days a) /\ month (from_days x) = month (from_days a) /\
  day (from_days x) = day (from_days a) + (x - a).
Proof.
  unfold raw, from_days. cbn [year month day]. intros A X.
  apply pair_equal_spec in A as (A & A3). apply pair_equal_spec in A as (A1 & A2).
  apply pair_equal_spec in X as (X & X3). apply pair_equal_spec in X as (X1 & X2).
  rewrite X1, A1 in *. rewrite X2, A2 in *. rewrite X3, A3 in *. lia.
Qed.

Lemma div_between u v w c : 0 < c -> u <= w <= v -> u / c = v / c -> w / c = u / c.
Proof.
  intros C H E. apply Z.le_antisymm; [rewrite E|]; apply Z.div_le_mono; lia.
Qed.

Lemma raw_between a b x : a <= x <= b -> raw a = raw b -> raw x = raw a.
Proof.
  unfold raw. intros H E.
  apply pair_equal_spec in E as (E & E3). apply pair_equal_spec in E as (E1 & E2).
  pose proof (div_between (4 * (a + 2483955)) (4 * (b + 2483955)) (4 * (x + 2483955)) 146097 ltac:(lia) ltac:(lia) E1) as N.
  rewrite <- E1 in E2, E3. rewrite N. clear N E1.
  set (n := 4 * (a + 2483955) / 146097) in *. clearbody n.
  set (c := (146097 * n + 3) / 4) in *. clearbody c.
  pose proof (div_between (4000 * (a + 2483955 - c + 1)) (4000 * (b + 2483955 - c + 1))
    (4000 * (x + 2483955 - c + 1)) 1461001 ltac:(lia) ltac:(lia) E2) as Y.
  rewrite <- E2 in E3. rewrite Y. clear Y E2.
  set (y := 4000 * (a + 2483955 - c + 1) / 1461001) in *. clearbody y.
  set (e := 1461 * y / 4) in *. clearbody e.
  f_equal. apply (div_between _ (80 * (b + 2483955 - c - e + 31))); [lia|lia|exact E3].
Qed.

(** The first and the last day of every month of 400 years. *)
Definition eq3 (a b : Z * Z * Z) : bool :=
  let '(x, y, z) := a in let '(x', y', z') := b in (x =? x') && (y =? y') && (z =? z').
Definition check_month (y m : Z) : bool :=
  let u := days_until_month m y in
  eq_ymd (parts (from_days (u + 1))) (y, m, 1) &&
  eq3 (raw (u + 1)) (raw (u + month_length y m)) &&
  (u =? year_as_days y + days_before_month y m) &&
  (u + month_length y m =? if m <? 12 then days_until_month (m + 1) y else days_until_month 1 (y + 1)).

Lemma check_months : all_from (fun y => all_from (check_month y) 1 12) 0 400 = true.
Proof. vm_cast_no_check (eq_refl true). Qed.

Lemma check_month_ok y m : 0 <= y < 400 -> 1 <= m <= 12 -> check_month y m = true.
Proof.
  intros Y M. pose proof (all_from_spec _ _ _ check_months y ltac:(lia)) as X. cbn beta in X.
  apply (all_from_spec _ _ _ X m). lia.
Qed.

Lemma until_next y m : 1 <= m <= 12 ->
  days_until_month m y + month_length y m =
  (if m <? 12 then days_until_month (m + 1) y else days_until_month 1 (y + 1)).
Proof.
  intros M. destruct (in_period y) as (k & r & -> & R).
  pose proof (check_month_ok r m R M) as C. unfold check_month in C. rewrite !andb_true_iff in C.
  destruct C as (_ & C). apply Z.eqb_eq in C.
  rewrite month_length_shift, !days_until_shift.
  replace (r + 400 * k + 1) with (r + 1 + 400 * k) by lia. rewrite days_until_shift.
  destruct (m <? 12); lia.
Qed.

Lemma year_month y m : 1 <= m <= 12 -> days_until_month m y = year_as_days y + days_before_month y m.
Proof.
  intros M. destruct (in_period y) as (k & r & -> & R).
  pose proof (check_month_ok r m R M) as C. unfold check_month in C. rewrite !andb_true_iff in C.
  destruct C as ((_ & C) & _). apply Z.eqb_eq in C.
  rewrite days_until_shift, year_as_days_shift, days_before_shift. lia.
Qed.

Lemma until_parts y m d : valid (y, m, d) -> parts (from_days (d + days_until_month m y)) = (y, m, d).
Proof.
  intros (M & D). destruct (in_period y) as (k & r & -> & R). rewrite month_length_shift in *.
  pose proof (check_month_ok r m R M) as C. unfold check_month in C. rewrite !andb_true_iff in C.
  destruct C as (((C1 & C2) & _) & _). apply eq_ymd_eq in C1.
  rewrite days_until_shift, Z.add_assoc, from_days_shift.
  set (u := days_until_month m r) in *. clearbody u.
  assert (E : raw (u + 1) = raw (u + month_length r m)).
  { destruct (raw (u + 1)) as [[? ?] ?], (raw (u + month_length r m)) as [[? ?] ?]. unfold eq3 in C2.
    rewrite !andb_true_iff, !Z.eqb_eq in C2. destruct C2 as ((-> & ->) & ->). reflexivity. }
  pose proof (raw_between (u + 1) (u + month_length r m) (d + u) ltac:(lia) E) as X.
  destruct (raw (u + 1)) as [[n0 y0] m0] eqn:E1.
  destruct (from_raw _ _ _ _ _ E1 X) as (F1 & F2 & F3).
  destruct (parts_eq _ _ _ _ C1) as (G1 & G2 & G3).
  unfold parts, shift400. rewrite F1, F2, F3, G1, G2, G3. f_equal. lia.
Qed.

(** The calendar's own successor is injective, so that dates are determined by their number. *)
Lemma next_valid x : valid x -> valid (next_day x).
Proof.
  destruct x as [[y m] d]. unfold valid, next_day. intros (M & D).
  destruct (Z.ltb_spec d (month_length y m)); [split; lia|].
  assert (P : forall y m, 1 <= month_length y m).
  { intros. unfold month_length. destruct (m0 =? 2); [destruct (leap y0); lia|].
    destruct ((m0 =? 4) || (m0 =? 6) || (m0 =? 9) || (m0 =? 11)); lia. }
  destruct (Z.ltb_spec m 12); (split; [lia|]); (split; [lia|]); apply P.
Qed.

Lemma triple_eq (a b c a' b' c' : Z) : (a, b, c) = (a', b', c') -> a = a' /\ b = b' /\ c = c'.
Proof. intros H. inversion H. auto. Qed.

Lemma next_inj x x' : valid x -> valid x' -> next_day x = next_day x' -> x = x'.
Proof.
  destruct x as [[y m] d], x' as [[y' m'] d']. unfold valid, next_day. intros (M & D) (M' & D').
  destruct (Z.ltb_spec d (month_length y m)), (Z.ltb_spec d' (month_length y' m')).
  - intros E. apply triple_eq in E as (-> & -> & E). f_equal. lia.
  - destruct (Z.ltb_spec m' 12); intros E; apply triple_eq in E as (E1 & E2 & E3); lia.
  - destruct (Z.ltb_spec m 12); intros E; apply triple_eq in E as (E1 & E2 & E3); lia.
  - destruct (Z.ltb_spec m 12), (Z.ltb_spec m' 12); intros E; apply triple_eq in E as (E1 & E2 & E3).
    + subst y'. assert (m = m') by lia. subst m'. f_equal. lia.
    + lia.
    + lia.
    + assert (y = y') by lia. assert (m = 12) by lia. assert (m' = 12) by lia. subst. f_equal. lia.
Qed.

Definition num (x : ymd) : Z := let '(y, m, d) := x in d + days_until_month m y.

Lemma month_length_ge y m : 28 <= month_length y m.
Proof.
  unfold month_length. destruct (m =? 2); [destruct (leap y); lia|].
  destruct ((m =? 4) || (m =? 6) || (m =? 9) || (m =? 11)); lia.
Qed.

Lemma num_next x : valid x -> num (next_day x) = num x + 1.
Proof.
  destruct x as [[y m] d]. intros (M & D). unfold next_day.
  destruct (Z.ltb_spec d (month_length y m)); [unfold num; lia|].
  pose proof (until_next y m M) as U. unfold num. destruct (m <? 12); lia.
Qed.

Definition prev_day (x : ymd) : ymd :=
  let '(y, m, d) := x in
  if 1 <? d then (y, m, d - 1)
  else if 1 <? m then (y, m - 1, month_length y (m - 1)) else (y - 1, 12, 31).

Lemma prev_valid x : valid x -> valid (prev_day x).
Proof.
  destruct x as [[y m] d]. intros (M & D). unfold prev_day, valid.
  destruct (Z.ltb_spec 1 d); [split; lia|].
  destruct (Z.ltb_spec 1 m).
  - pose proof (month_length_ge y (m - 1)). lia.
  - unfold month_length. cbn. lia.
Qed.

Lemma num_prev x : valid x -> num (prev_day x) = num x - 1.
Proof.
  destruct x as [[y m] d]. intros (M & D). unfold prev_day.
  destruct (Z.ltb_spec 1 d); [unfold num; lia|].
  destruct (Z.ltb_spec 1 m).
  - pose proof (until_next y (m - 1) ltac:(lia)) as U. unfold num.
    destruct (Z.ltb_spec (m - 1) 12); [|lia]. replace (m - 1 + 1) with m in U by lia. lia.
  - pose proof (until_next (y - 1) 12 ltac:(lia)) as U. unfold num.
    change (12 <? 12) with false in U. change (month_length (y - 1) 12) with 31 in U.
    replace (y - 1 + 1) with y in U by lia. replace m with 1 by lia. lia.
Qed.

Lemma num_total n : exists x, valid x /\ num x = n.
Proof.
  destruct (Z.le_gt_cases 0 n) as [P|P].
  - revert n P. apply natlike_ind.
    + exists epoch. split; [unfold valid, epoch, month_length; cbn; lia|reflexivity].
    + intros n P (x & V & E). exists (next_day x). split; [apply next_valid; auto|]. rewrite num_next by auto. lia.
  - remember (- n) as k eqn:K. assert (0 <= k) as Pk by lia. clear P. revert n K.
    pattern k. revert k Pk. apply natlike_ind.
    + intros n K. exists epoch. split; [unfold valid, epoch, month_length; cbn; lia|]. replace n with 0 by lia. reflexivity.
    + intros k P IH n K. destruct (IH (n + 1) ltac:(lia)) as (x & V & E).
      exists (prev_day x). split; [apply prev_valid; auto|]. rewrite num_prev by auto. lia.
Qed.

Lemma from_num x : valid x -> parts (from_days (num x)) = x.
Proof. destruct x as [[y m] d]. apply until_parts. Qed.

Lemma from_days_valid d : valid (parts (from_days d)).
Proof. destruct (num_total d) as (x & V & <-). rewrite from_num; auto. Qed.

Lemma from_days_next d : parts (from_days (d + 1)) = next_day (parts (from_days d)).
Proof.
  destruct (num_total d) as (x & V & <-). rewrite <- num_next by auto.
  rewrite !from_num; auto. apply next_valid. auto.
Qed.

Lemma until_round d : let x := from_days d in day x + days_until_month (month x) (year x) = d.
Proof.
  cbn zeta. destruct (num_total d) as ([[y m] a] & V & <-).
  destruct (parts_eq _ _ _ _ (from_num _ V)) as (-> & -> & ->). reflexivity.
Qed.

Lemma year_round d : let x := from_days d in d - year_as_days (year x) = days_before_month (year x) (month x) + day x.
Proof.
  cbn zeta. destruct (num_total d) as ([[y m] a] & V & <-).
  destruct (parts_eq _ _ _ _ (from_num _ V)) as (-> & -> & ->).
  cbn [num]. rewrite (year_month y m) by apply V. lia.
Qed.

Lemma nth_date_unique n x : nth_date n x -> valid x /\ x = parts (from_days n).
Proof.
  induction 1 as [|n x H (V & ->)|n x V H (_ & E)].
  - rewrite from_days_epoch. split; auto. unfold valid, epoch, month_length. cbn. lia.
  - split; [apply next_valid; auto|]. symmetry. apply from_days_next.
  - split; auto. rewrite from_days_next in E. apply next_inj; auto. apply from_days_valid.
Qed.

Lemma nth_date_total n : nth_date n (parts (from_days n)).
Proof.
  destruct (Z.le_gt_cases 0 n) as [P|P].
  - revert n P. apply natlike_ind.
    + rewrite from_days_epoch. constructor.
    + intros n P IH. unfold Z.succ. rewrite from_days_next. constructor. auto.
  - remember (- n) as k eqn:K. assert (0 <= k) as Pk by lia. clear P. revert n K.
    pattern k. revert k Pk. apply natlike_ind.
    + intros n K. replace n with 0 by lia. rewrite from_days_epoch. constructor.
    + intros k P IH n K. apply nd_prev; [apply from_days_valid|]. rewrite <- from_days_next. apply IH. lia.
Qed.


Lemma until_spec y m d : valid (y, m, d) -> nth_date (d + days_until_month m y) (y, m, d).
Proof.
  intros V. pose proof (nth_date_total (d + days_until_month m y)) as H. rewrite (until_parts y m d V) in H. exact H.
Qed.

Lemma new_date y m d : 1 <= m <= 12 -> exists x, new_day_month_year d m y = Ok x /\
  days x = d + days_until_month m y /\ parts x = parts (from_days (days x)) /\
  (valid (y, m, d) -> parts x = (y, m, d)).
Proof.
  intros M. unfold new_day_month_year. rewrite days_in_month_ok by auto. cbn [obind].
  destruct (Z.ltb_spec d 1).
  - eexists. split; [reflexivity|]. split; [reflexivity|]. split; [reflexivity|]. intros (_ & V). lia.
  - destruct (Z.ltb_spec (month_length y m) d).
    + eexists. split; [reflexivity|]. split; [reflexivity|]. split; [reflexivity|]. intros (_ & V). lia.
    + eexists. split; [reflexivity|]. split; [reflexivity|].
      assert (V : valid (y, m, d)) by (unfold valid; lia). cbn [days parts year month day].
      rewrite (until_parts y m d V). auto.
Qed.

Lemma year_as_days_next y : year_as_days (y + 1) = year_as_days y + year_length y.
Proof.
  rewrite <- days_in_year_ok. unfold year_as_days, days_in_year.
  replace (y + 1 + 4799) with (y + 4800) by lia. replace (y + 1 + 4899) with (y + 4900) by lia. lia.
Qed.

Lemma week d : day_of_week (from_days (d + 1)) = (if day_of_week (from_days d) =? 7 then 1 else day_of_week (from_days d) + 1).
Proof.
  unfold day_of_week. change (days (from_days (d + 1))) with (d + 1). change (days (from_days d)) with d.
  destruct (Z.eqb_spec ((d + 1) mod 7 + 1) 7); lia.
Qed.
