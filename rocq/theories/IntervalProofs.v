(** Proofs about Interval. *)
From Verif Require Import Base Interval IntervalSpec.
Local Open Scope Z_scope.

Definition beyondb (up : bool) (stop i : Z) : bool := if up then i <=? stop else stop <=? i.

Lemma progression_S a s n : progression a s (S n) = a :: progression (a + s) s n.
Proof.
  unfold progression. cbn. f_equal; [lia|]. rewrite <- seq_shift, map_map. apply map_ext. intros. lia.
Qed.

Lemma progression_length a s n : length (progression a s n) = n.
Proof. unfold progression. rewrite map_length, seq_length. auto. Qed.

(** The number of elements. *)
Definition count (v : interval) : Z :=
  if 0 <? step v
  then (if start v <=? stop v then (stop v - start v) / step v + 1 else 0)
  else (if stop v <=? start v then (stop v - start v) / step v + 1 else 0).

Lemma size_count v : step v <> 0 -> size v = Ok (count v).
Proof.
  intros N. unfold size, count. destruct (0 <? step v), (start v <=? stop v), (stop v <=? start v); auto;
    destruct (Z.eqb_spec (step v) 0); congruence.
Qed.

Lemma count_within v : step v <> 0 -> 0 <= count v /\
  (forall k, 0 <= k -> (within (stop v) (step v) (start v + k * step v) <-> k < count v)).
Proof.
  intros N. unfold count, within. destruct v as [a b s]. cbn in *.
  destruct (Z.ltb_spec 0 s) as [P|P].
  - destruct (Z.leb_spec a b) as [L|L].
    + pose proof (Z.div_mod (b - a) s N) as D. pose proof (Z.mod_pos_bound (b - a) s P) as B.
      assert (0 <= (b - a) / s) by (apply Z.div_pos; lia).
      split; [lia|]. intros k K. split; intros H0; nia.
    + split; [lia|]. intros k K. split; intros H0; nia.
  - assert (P' : s < 0) by lia. destruct (Z.leb_spec b a) as [L|L].
    + pose proof (Z.div_mod (b - a) s N) as D. pose proof (Z.mod_neg_bound (b - a) s P') as B.
      assert (0 <= (b - a) / s) by (rewrite <- (Z.opp_involutive (b - a)), <- (Z.opp_involutive s), Z.div_opp_opp by lia; apply Z.div_pos; lia).
      split; [lia|]. intros k K. split; intros H0; nia.
    + split; [lia|]. intros k K. split; intros H0; nia.
Qed.

Lemma count_le v : step v <> 0 -> count v <= Z.abs (stop v - start v) + 1.
Proof.
  intros N. destruct (count_within v N) as (C & W).
  destruct (Z.eq_dec (count v) 0) as [->|Nz]; [lia|].
  assert (H : within (stop v) (step v) (start v + (count v - 1) * step v)) by (apply W; lia).
  unfold within in H. destruct (Z.ltb_spec 0 (step v)); nia.
Qed.

Lemma within_b v x : (if (0 <? step v) then x <=? stop v else stop v <=? x) = true <-> within (stop v) (step v) x.
Proof. unfold within. destruct (0 <? step v); rewrite Z.leb_le; tauto. Qed.

Lemma loop_ok v fuel : forall k, step v <> 0 -> (Z.to_nat (count v - Z.of_nat k) <= fuel)%nat -> Z.of_nat k <= count v ->
  loop (0 <? step v) (stop v) (step v) fuel (start v + Z.of_nat k * step v) =
  Ok (progression (start v + Z.of_nat k * step v) (step v) (Z.to_nat (count v - Z.of_nat k))).
Proof.
  induction fuel as [|fuel IH]; intros k N F K; destruct (count_within v N) as (C & W).
  - assert (Z.of_nat k = count v) as E by lia. cbn.
    replace (Z.to_nat (count v - Z.of_nat k)) with O by lia.
    destruct (if 0 <? step v then _ else _) eqn:B; auto.
    apply within_b, W in B; lia.
  - cbn [loop]. destruct (if 0 <? step v then _ else _) eqn:B.
    + apply within_b, W in B; [|lia].
      replace (start v + Z.of_nat k * step v + step v) with (start v + Z.of_nat (S k) * step v) by lia.
      rewrite (IH (S k) N) by lia. cbn [obind].
      replace (Z.to_nat (count v - Z.of_nat k)) with (S (Z.to_nat (count v - Z.of_nat (S k)))) by lia.
      rewrite progression_S. do 2 f_equal. f_equal. lia.
    + assert (~ Z.of_nat k < count v) as Z0.
      { intros X. apply W, within_b in X; [|lia]. congruence. }
      replace (Z.to_nat (count v - Z.of_nat k)) with O by lia. reflexivity.
Qed.

Lemma do_ok v : step v <> 0 -> do_ v = Ok (progression (start v) (step v) (Z.to_nat (count v))).
Proof.
  intros N. unfold do_. pose proof (loop_ok v (S (Z.to_nat (Z.abs (stop v - start v)))) 0 N) as H.
  pose proof (count_le v N). destruct (count_within v N) as (C & _).
  replace (start v + Z.of_nat 0 * step v) with (start v) in H by lia. rewrite Z.sub_0_r in H.
  apply H; lia.
Qed.

Lemma In_progression a s n x : In x (progression a s n) <-> exists k, 0 <= k < Z.of_nat n /\ x = a + k * s.
Proof.
  unfold progression. rewrite in_map_iff. split.
  - intros (k & <- & K). apply in_seq in K. exists (Z.of_nat k). split; [lia|auto].
  - intros (k & K & ->). exists (Z.to_nat k). rewrite in_seq. split; [|lia]. rewrite Z2Nat.id by lia. auto.
Qed.

Lemma do_denotes v : step v <> 0 -> exists l, do_ v = Ok l /\ denotes (start v) (stop v) (step v) l /\
  size v = Ok (Z.of_nat (length l)).
Proof.
  intros N. destruct (count_within v N) as (C & W). eexists. split; [apply do_ok; auto|].
  rewrite size_count by auto. rewrite progression_length, Z2Nat.id by lia. split; [|auto].
  unfold denotes. rewrite progression_length. split; [auto|]. split.
  - intros x H. apply In_progression in H as (k & K & ->). apply W; lia.
  - rewrite Z2Nat.id by lia. intros H. apply W in H; lia.
Qed.

Lemma nth_progression a s n k : (k < n)%nat -> nth_error (progression a s n) k = Some (a + Z.of_nat k * s).
Proof.
  intros H. unfold progression. rewrite nth_error_map.
  rewrite (nth_error_nth' _ 0%nat) by (rewrite seq_length; lia). rewrite seq_nth by lia. reflexivity.
Qed.

Lemma at_ok v i : step v <> 0 ->
  at_ v i = if (1 <=? i) && (i <=? count v) then Ok (start v + step v * (i - 1)) else Err.
Proof.
  intros N. unfold at_. rewrite size_count by auto. cbn. destruct (1 <=? i), (i <=? count v); auto.
Qed.

Lemma collect_loop_ok v fuel : forall k, step v <> 0 -> (Z.to_nat (count v - Z.of_nat k) <= fuel)%nat -> Z.of_nat k <= count v ->
  collect_loop (0 <? step v) (stop v) (step v) fuel (start v + Z.of_nat k * step v) (Z.of_nat k + 1) (count v) =
  Ok (progression (start v + Z.of_nat k * step v) (step v) (Z.to_nat (count v - Z.of_nat k))).
Proof.
  induction fuel as [|fuel IH]; intros k N F K; destruct (count_within v N) as (C & W).
  - assert (Z.of_nat k = count v) as E by lia. cbn.
    replace (Z.to_nat (count v - Z.of_nat k)) with O by lia.
    destruct (if 0 <? step v then _ else _) eqn:B; auto.
    apply within_b, W in B; lia.
  - cbn [collect_loop]. destruct (if 0 <? step v then _ else _) eqn:B.
    + apply within_b, W in B; [|lia].
      replace ((1 <=? Z.of_nat k + 1) && (Z.of_nat k + 1 <=? count v)) with true by lia.
      replace (start v + Z.of_nat k * step v + step v) with (start v + Z.of_nat (S k) * step v) by lia.
      replace (Z.of_nat k + 1 + 1) with (Z.of_nat (S k) + 1) by lia.
      rewrite (IH (S k) N) by lia. cbn [obind].
      replace (Z.to_nat (count v - Z.of_nat k)) with (S (Z.to_nat (count v - Z.of_nat (S k)))) by lia.
      rewrite progression_S. do 2 f_equal. f_equal. lia.
    + assert (~ Z.of_nat k < count v) as Z0.
      { intros X. apply W, within_b in X; [|lia]. congruence. }
      replace (Z.to_nat (count v - Z.of_nat k)) with O by lia. reflexivity.
Qed.

Lemma collect_ok v : step v <> 0 -> exists l, do_ v = Ok l /\ collect v = Ok (Z.of_nat (length l), l).
Proof.
  intros N. eexists. split; [apply do_ok; auto|]. unfold collect. rewrite size_count by auto. cbn [obind].
  pose proof (collect_loop_ok v (S (Z.to_nat (Z.abs (stop v - start v)))) 0 N) as H.
  pose proof (count_le v N). destruct (count_within v N) as (C & _).
  replace (start v + Z.of_nat 0 * step v) with (start v) in H by lia. rewrite Z.sub_0_r in H.
  change (Z.of_nat 0 + 1) with 1 in H.
  rewrite H by lia. cbn [obind]. rewrite progression_length, Z2Nat.id by lia. reflexivity.
Qed.

(** ** isEmpty, first, last *)

Lemma empty_count v : step v <> 0 -> ~ (step v < 0 /\ start v = stop v) ->
  (is_empty v = true <-> count v = 0).
Proof.
  intros N X. destruct (count_within v N) as (C & W). unfold is_empty.
  assert (H : within (stop v) (step v) (start v) <-> 0 < count v).
  { specialize (W 0 ltac:(lia)). replace (start v + 0 * step v) with (start v) in W by lia. exact W. }
  unfold within in H. destruct (Z.ltb_spec 0 (step v)); cbn.
  - destruct (Z.ltb_spec (stop v) (start v)); cbn; split; intros; try lia; try congruence.
  - destruct (Z.ltb_spec (stop v) (start v)); cbn; split; intros; try lia; try congruence.
Qed.

Lemma last_ok v : step v <> 0 -> is_empty v = false -> 0 < count v ->
  last v = Ok (start v + (count v - 1) * step v).
Proof.
  intros N E C. unfold last. rewrite E. destruct (Z.eqb_spec (step v) 0); [congruence|].
  f_equal. unfold count in *. pose proof (Z.div_mod (stop v - start v) (step v) N).
  destruct (0 <? step v); [destruct (start v <=? stop v)|destruct (stop v <=? start v)]; lia.
Qed.

(** ** reverse, copyFrom:to: *)

Lemma rev_progression a s n : rev (progression a s n) = progression (a + (Z.of_nat n - 1) * s) (- s) n.
Proof.
  induction n as [|n IH]; [reflexivity|].
  assert (L : forall a s n, progression a s (S n) = progression a s n ++ [a + Z.of_nat n * s]).
  { intros. unfold progression. rewrite seq_S, map_app. reflexivity. }
  rewrite L, rev_app_distr, IH. cbn [rev app]. rewrite progression_S. f_equal; [lia|]. f_equal. lia.
Qed.

Lemma denotes_do v n : step v <> 0 ->
  (forall k, 0 <= k -> (within (stop v) (step v) (start v + k * step v) <-> k < Z.of_nat n)) ->
  do_ v = Ok (progression (start v) (step v) n).
Proof.
  intros N W. rewrite do_ok by auto. destruct (count_within v N) as (C & W').
  assert (count v = Z.of_nat n) as ->.
  { destruct (Z.lt_trichotomy (count v) (Z.of_nat n)) as [L|[L|L]]; auto.
    - assert (count v < count v) by (apply W', W; lia). lia.
    - assert (Z.of_nat n < Z.of_nat n) by (apply W, W'; lia). lia. }
  rewrite Nat2Z.id. reflexivity.
Qed.

Lemma reverse_ok v l : step v <> 0 -> do_ v = Ok l -> l <> [] ->
  exists w, reverse v = Ok w /\ do_ w = Ok (rev l).
Proof.
  intros N E Ne. rewrite do_ok in E by auto. injection E as <-.
  destruct (count_within v N) as (C & W).
  assert (P : 0 < count v).
  { destruct (Z.eq_dec (count v) 0) as [Z0|]; [|lia]. rewrite Z0 in Ne. cbn in Ne. congruence. }
  unfold reverse. rewrite size_count by auto. cbn [obind]. rewrite !at_ok by auto.
  replace ((1 <=? count v) && (count v <=? count v)) with true by lia.
  replace ((1 <=? 1) && (1 <=? count v)) with true by lia. cbn [obind].
  eexists. split; [reflexivity|].
  rewrite rev_progression.
  replace (start v + (Z.of_nat (Z.to_nat (count v)) - 1) * step v) with (start v + step v * (count v - 1)) by lia.
  apply (denotes_do (mkI _ _ _)); cbn [step start stop]; [lia|].
  intros k K. unfold within. destruct (Z.ltb_spec 0 (- step v)); split; intros; nia.
Qed.

Lemma skipn_progression s i : forall a n, (i <= n)%nat ->
  skipn i (progression a s n) = progression (a + Z.of_nat i * s) s (n - i).
Proof.
  induction i as [|i IH]; intros a n H.
  - cbn [skipn]. rewrite Nat.sub_0_r. f_equal. lia.
  - destruct n as [|n]; [lia|]. rewrite progression_S. cbn [skipn]. rewrite IH by lia. f_equal. lia.
Qed.

Lemma firstn_progression s i : forall a n, (i <= n)%nat ->
  firstn i (progression a s n) = progression a s i.
Proof.
  induction i as [|i IH]; intros a n H; [reflexivity|].
  destruct n as [|n]; [lia|]. rewrite !progression_S. cbn [firstn]. rewrite IH by lia. reflexivity.
Qed.

Lemma copy_ok v l a b : step v <> 0 -> do_ v = Ok l ->
  1 <= a -> a <= b + 1 -> b <= Z.of_nat (length l) ->
  exists w, copy_from_to v a b = Ok w /\
    do_ w = Ok (firstn (Z.to_nat (b - a + 1)) (skipn (Z.to_nat (a - 1)) l)).
Proof.
  intros N E A B C. rewrite do_ok in E by auto. injection E as <-.
  destruct (count_within v N) as (C0 & W). rewrite progression_length, Z2Nat.id in C by lia.
  unfold copy_from_to. destruct (Z.ltb_spec b a).
  - replace (b =? a - 1) with true by lia. eexists. split; [reflexivity|].
    replace (Z.to_nat (b - a + 1)) with O by lia. cbn [firstn].
    apply (denotes_do (mkI _ _ _) 0); cbn [step start stop]; [auto|].
    intros k K. unfold within. destruct (Z.ltb_spec 0 (step v)); split; intros; nia.
  - rewrite !at_ok by auto.
    replace ((1 <=? b) && (b <=? count v)) with true by lia.
    replace ((1 <=? a) && (a <=? count v)) with true by lia. cbn [obind].
    eexists. split; [reflexivity|].
    rewrite skipn_progression, firstn_progression by lia.
    rewrite Z2Nat.id by lia. rewrite (Z.mul_comm (a - 1) (step v)).
    apply (denotes_do (mkI _ _ _)); cbn [step start stop]; [auto|].
    intros k K. unfold within. destruct (Z.ltb_spec 0 (step v)); split; intros; nia.
Qed.

(** ** = and hash *)

Lemma equal_ok v w lv lw : step v <> 0 -> step w <> 0 ->
  ~ (step v < 0 /\ start v = stop v) -> ~ (step w < 0 /\ start w = stop w) ->
  do_ v = Ok lv -> do_ w = Ok lw -> equal v w = Ok true -> lv = lw.
Proof.
  intros Nv Nw Xv Xw Ev Ew E. rewrite do_ok in Ev, Ew by auto. injection Ev as <-. injection Ew as <-.
  pose proof (empty_count v Nv Xv) as Iv. pose proof (empty_count w Nw Xw) as Iw.
  destruct (count_within v Nv) as (Cv & _). destruct (count_within w Nw) as (Cw & _).
  unfold equal in E. destruct (is_empty v) eqn:Bv, (is_empty w) eqn:Bw; try congruence.
  - rewrite (proj1 Iv eq_refl), (proj1 Iw eq_refl). reflexivity.
  - assert (0 < count v) by (destruct (Z.eq_dec (count v) 0); [|lia]; destruct Iv; intuition congruence).
    assert (0 < count w) by (destruct (Z.eq_dec (count w) 0); [|lia]; destruct Iw; intuition congruence).
    rewrite !last_ok in E by auto. unfold first in E. rewrite Bv, Bw in E. cbn [obind] in E.
    destruct (Z.eqb_spec (start v) (start w)) as [E1|]; [|congruence].
    destruct (Z.eqb_spec (start v + (count v - 1) * step v) (start w + (count w - 1) * step w)) as [E2|]; [|congruence].
    destruct (Z.eqb_spec (step v) (step w)) as [E3|]; [|congruence].
    rewrite E1, E3 in *. assert (count v = count w) as -> by nia. reflexivity.
Qed.

Lemma denotes_unique a b s l l' : s <> 0 -> denotes a b s l -> denotes a b s l' -> l = l'.
Proof.
  intros N (E & W & M) (E' & W' & M'). rewrite E, E'. f_equal.
  assert (G : forall l1 l2 : list Z, l1 = progression a s (length l1) -> (forall x, In x l1 -> within b s x) ->
            ~ within b s (a + Z.of_nat (length l2) * s) -> (length l1 <= length l2)%nat).
  { intros l1 l2 E1 W1 M2. destruct (Nat.le_gt_cases (length l1) (length l2)) as [|L]; auto.
    exfalso. apply M2, W1. rewrite E1. apply In_progression. exists (Z.of_nat (length l2)). split; [lia|auto]. }
  apply Nat.le_antisymm; [apply (G l l')|apply (G l' l)]; auto.
Qed.

Lemma at_nth v l i : step v <> 0 -> do_ v = Ok l ->
  at_ v i = match (if 1 <=? i then nth_error l (Z.to_nat (i - 1)) else None) with Some x => Ok x | None => Err end.
Proof.
  intros N E. rewrite do_ok in E by auto. injection E as <-. rewrite at_ok by auto.
  destruct (count_within v N) as (C & _).
  destruct (Z.leb_spec 1 i); [|reflexivity]. destruct (Z.leb_spec i (count v)); cbn [andb].
  - rewrite nth_progression by lia. f_equal. rewrite Z2Nat.id by lia. lia.
  - replace (nth_error _ _) with (@None Z); auto. symmetry. apply nth_error_None. rewrite progression_length. lia.
Qed.

Lemma zero_step a b fuel : b <= a -> loop (0 <? 0) b 0 fuel a = OutOfFuel.
Proof.
  intros H. induction fuel as [|n IH].
  - cbn. replace (b <=? a) with true by lia. reflexivity.
  - cbn [loop]. cbn [Z.ltb Z.compare] in *. replace (b <=? a) with true by lia. rewrite Z.add_0_r, IH. reflexivity.
Qed.

Lemma empty_size v : step v <> 0 -> ~ (step v < 0 /\ start v = stop v) ->
  (is_empty v = true <-> size v = Ok 0).
Proof.
  intros N X. rewrite empty_count, size_count by auto. split; [congruence|]. intros E. injection E; auto.
Qed.

Lemma one_element : exists v, size v = Ok 1 /\ do_ v = Ok [5] /\ is_empty v = true /\
  first v = Err /\ last v = Err /\ equal v (mkI 1 0 1) = Ok true.
Proof. exists (mkI 5 5 (-1)). vm_compute. auto 10. Qed.

Lemma first_last v l : step v <> 0 -> ~ (step v < 0 /\ start v = stop v) -> do_ v = Ok l ->
  first v = match hd_error l with Some x => Ok x | None => Err end /\
  last v = match hd_error (rev l) with Some x => Ok x | None => Err end.
Proof.
  intros N X E. rewrite do_ok in E by auto. injection E as <-.
  pose proof (empty_count v N X) as I0. destruct (count_within v N) as (C & _).
  destruct (is_empty v) eqn:B.
  - rewrite (proj1 I0 eq_refl). unfold first, last. rewrite B. auto.
  - assert (0 < count v) by (destruct (Z.eq_dec (count v) 0); [|lia]; destruct I0; intuition congruence).
    rewrite rev_progression, last_ok by auto. unfold first. rewrite B.
    destruct (Z.to_nat (count v)) as [|n] eqn:En; [lia|]. rewrite !progression_S. cbn [hd_error].
    split; auto. f_equal. replace (count v) with (Z.of_nat (S n)) by lia. auto.
Qed.

Lemma equal_hash : exists v w, equal v w = Ok true /\ do_ v = do_ w /\ hash v <> hash w.
Proof. exists (mkI 1 10 4), (mkI 1 9 4). vm_compute. split; [auto|split; [auto|congruence]]. Qed.

Lemma same_hash v w : equal v w = Ok true -> is_empty v = false -> stop v = stop w -> hash v = hash w.
Proof.
  intros E B S0. unfold equal in E. rewrite B in E. destruct (is_empty w) eqn:Bw; [congruence|].
  unfold first, last in E. rewrite B, Bw in E. cbn [obind] in E.
  destruct (Z.eqb_spec (start v) (start w)) as [E1|]; [|congruence].
  destruct (step v =? 0); [cbn in E; congruence|]. destruct (step w =? 0); [cbn in E; congruence|]. cbn [obind] in E.
  destruct (_ =? _); [|congruence]. destruct (Z.eqb_spec (step v) (step w)) as [E3|]; [|congruence].
  unfold hash. rewrite E1, E3, S0. reflexivity.
Qed.

Lemma reverse_empty v : step v <> 0 -> do_ v = Ok [] -> reverse v = Err.
Proof.
  intros N E. rewrite do_ok in E by auto. injection E as E. apply (f_equal (@length Z)) in E.
  rewrite progression_length in E. cbn in E. destruct (count_within v N) as (C & _).
  unfold reverse. rewrite size_count by auto. cbn [obind]. rewrite at_ok by auto.
  replace (count v) with 0 by lia. reflexivity.
Qed.

Lemma reverse_refuted : exists v, step v <> 0 /\ do_ v = Ok [] /\ forall w, reverse v <> Ok w.
Proof. exists (mkI 1 0 1). split; [discriminate|]. split; [reflexivity|]. vm_compute. congruence. Qed.
