(** Lemmas about the object table. *)
From Verif Require Import Base OopTab OopTabRun OopTabSpec.
Local Open Scope Z_scope.

(** ** Flags as bits *)
Lemma any_pow : forall f k, 0 <= k -> any f (2 ^ k) = Z.testbit f k.
Proof.
  intros f k Hk. unfold any.
  destruct (Z.testbit f k) eqn:E.
  - apply negb_true_iff, Z.eqb_neq. intros H.
    assert (Z.testbit (Z.land f (2 ^ k)) k = true).
    { rewrite Z.land_spec, E, Z.pow2_bits_true by lia. reflexivity. }
    rewrite H, Z.bits_0 in H0. discriminate.
  - apply negb_false_iff, Z.eqb_eq. apply Z.bits_inj'. intros n Hn.
    rewrite Z.land_spec, Z.bits_0, Z.pow2_bits_eqb by lia.
    destruct (Z.eqb_spec k n) as [<-|]; [rewrite E|]; auto using andb_false_r.
Qed.

Lemma any_lor : forall f a b, any f (Z.lor a b) = any f a || any f b.
Proof.
  intros f a b. unfold any. rewrite Z.land_lor_distr_r.
  destruct (Z.land f a =? 0) eqn:Ha, (Z.land f b =? 0) eqn:Hb; cbn [negb orb].
  - apply Z.eqb_eq in Ha, Hb. rewrite Ha, Hb. reflexivity.
  - apply negb_true_iff, Z.eqb_neq. intros H. apply Z.lor_eq_0_iff in H. lia.
  - apply negb_true_iff, Z.eqb_neq. intros H. apply Z.lor_eq_0_iff in H. lia.
  - apply negb_true_iff, Z.eqb_neq. intros H. apply Z.lor_eq_0_iff in H. lia.
Qed.

Definition oldb f := Z.testbit f 8.
Definition reachb f := Z.testbit f 23.
Definition evenb f := Z.testbit f 18.
Definition oddb f := Z.testbit f 17.

Lemma any_old f : any f F_OLD = oldb f.
Proof. apply (any_pow f 8). lia. Qed.
Lemma any_reach f : any f F_REACHABLE = reachb f.
Proof. apply (any_pow f 23). lia. Qed.
Lemma any_even f : any f F_EVEN = evenb f.
Proof. apply (any_pow f 18). lia. Qed.
Lemma any_odd f : any f F_ODD = oddb f.
Proof. apply (any_pow f 17). lia. Qed.
Lemma any_spaces f : any f F_SPACES = evenb f || oddb f.
Proof. change F_SPACES with (Z.lor F_EVEN F_ODD). rewrite any_lor, any_even, any_odd. reflexivity. Qed.

Lemma bits_unmark f :
  oldb (Z.ldiff f F_REACHABLE) = oldb f /\ evenb (Z.ldiff f F_REACHABLE) = evenb f
  /\ oddb (Z.ldiff f F_REACHABLE) = oddb f /\ reachb (Z.ldiff f F_REACHABLE) = false.
Proof.
  unfold oldb, evenb, oddb, reachb. rewrite !Z.ldiff_spec.
  change (Z.testbit F_REACHABLE 8) with false. change (Z.testbit F_REACHABLE 18) with false.
  change (Z.testbit F_REACHABLE 17) with false. change (Z.testbit F_REACHABLE 23) with true.
  cbn [negb]. rewrite !andb_true_r, andb_false_r. auto.
Qed.

(** Which half of newspace is in use, and whether only marked objects count as alive. *)
Definition activeb (act f : Z) : bool := if act =? F_EVEN then evenb f else oddb f.
Definition otherb (act f : Z) : bool := if act =? F_EVEN then oddb f else evenb f.

Definition live_of (marked : bool) (act : Z) : Z :=
  Z.lor (if marked then F_REACHABLE else F_OLD) act.

Definition is_space (act : Z) : Prop := act = F_EVEN \/ act = F_ODD.

Lemma any_live : forall f (m : bool) act, is_space act ->
  any f (live_of m act) = (if m then reachb f else oldb f) || activeb act f.
Proof.
  intros f m act [-> | ->]; unfold live_of; rewrite any_lor; destruct m; cbn [activeb];
    rewrite ?any_reach, ?any_old, ?any_even, ?any_odd; reflexivity.
Qed.

Lemma finished_live : forall m act, is_space act ->
  (if any (live_of m act) F_OLD then live_of m act
   else Z.lor (Z.ldiff (live_of m act) F_REACHABLE) F_OLD) = live_of false act.
Proof. intros [] act [-> | ->]; reflexivity. Qed.

(** ** The invariant *)
Definition unswept (s : table) (i : Z) : bool := (last_swept s <? i) && (i <=? next_to_sweep s).

Definition slot (m : bool) (s : table) (w : world) (i : Z) : Prop :=
  match objs w i with
  | None => young w i = false
            /\ if unswept s i then is_valid_gc s i = false else flags s i = 0
  | Some c =>
      cont s i = c
      /\ reachb (flags s i) = (m && unswept s i)
      /\ oldb (flags s i) = negb (young w i)
      /\ activeb (active_flag s) (flags s i) = young w i
      /\ otherb (active_flag s) (flags s i) = false
  end.

Record core (m : bool) (s : table) (w : world) : Prop := Core {
  c_space : is_space (active_flag s);
  c_live : live_flags s = live_of m (active_flag s);
  c_swept : -1 <= last_swept s;
  c_next : next_to_sweep s < size s;
  c_alloc : -1 <= last_allocated s < size s;
  c_slot : forall i, 0 <= i < size s -> slot m s w i;
  c_low : forall i, 0 <= i <= last_swept s -> used (objs w) i;
  c_high : forall i, last_allocated s < i < size s -> flags s i = 0;
  c_none : forall i, (i < 0 \/ size s <= i) -> objs w i = None /\ young w i = false
}.

(** Only while the sweep is running may live objects above [last_swept] have
    lost their mark without being taken for dead. *)
Definition stale_ok (m : bool) (s : table) (w : world) : Prop :=
  m = true -> incremental_gc_running s = false ->
  forall i, last_swept s < i -> objs w i = None.

Definition inv (s : table) (w : world) : Prop := exists m, core m s w /\ stale_ok m s w.

Lemma zero_dead : forall s m i, is_space (active_flag s) -> live_flags s = live_of m (active_flag s) ->
  flags s i = 0 -> is_valid_gc s i = false.
Proof. intros s m i Ha Hl Hf. unfold is_valid_gc. rewrite Hf. reflexivity. Qed.

Lemma core_swept_bound : forall m s w, core m s w -> last_swept s < size s.
Proof.
  intros m s w H. destruct (Z_lt_le_dec (last_swept s) (size s)) as [|Hge]; [assumption|].
  exfalso. pose proof (c_alloc _ _ _ H).
  destruct (c_none _ _ _ H (size s)) as [Hn _]; [lia|].
  apply (c_low _ _ _ H (size s)); [lia|assumption].
Qed.

(** An OOP that has not been swept is in use exactly if it looks alive. *)
Lemma unswept_valid : forall m s w i, core m s w -> 0 <= i < size s -> unswept s i = true ->
  is_valid_gc s i = match objs w i with Some _ => true | None => false end.
Proof.
  intros m s w i H Hi Hu. pose proof (c_slot _ _ _ H i Hi) as Hs. unfold slot in Hs.
  destruct (objs w i) as [c|].
  - destruct Hs as (_ & Hr & Ho & Ha & _). unfold is_valid_gc.
    rewrite (c_live _ _ _ H), any_live by apply (c_space _ _ _ H).
    rewrite Hu in Hr. destruct m.
    + rewrite Hr. reflexivity.
    + rewrite Ho, Ha. destruct (young w i); reflexivity.
  - rewrite Hu in Hs. tauto.
Qed.

(** Once the marks are no longer looked at, this is so for every OOP. *)
Lemma all_valid : forall s w i, core false s w -> 0 <= i < size s ->
  is_valid_gc s i = match objs w i with Some _ => true | None => false end.
Proof.
  intros s w i H Hi. pose proof (c_slot _ _ _ H i Hi) as Hs. unfold slot in Hs.
  destruct (objs w i) as [c|].
  - destruct Hs as (_ & Hr & Ho & Ha & _). unfold is_valid_gc.
    rewrite (c_live _ _ _ H), any_live by apply (c_space _ _ _ H).
    rewrite Ho, Ha. destruct (young w i); reflexivity.
  - destruct Hs as [_ Hs]. destruct (unswept s i); [assumption|].
    eapply zero_dead; [apply (c_space _ _ _ H)|apply (c_live _ _ _ H)|assumption].
Qed.

Ltac conj := repeat match goal with |- _ /\ _ => split end; auto; try lia; try congruence.

Ltac prj := cbn [flags cont size last_allocated last_swept next_to_sweep live_flags active_flag
                 set_flags set_last_allocated set_last_swept set_next_to_sweep set_live_flags] in *.

(** Raising the lower end of the range by one. *)
Lemma unmark_up : forall m s w i, core m (set_last_swept s (i - 1)) w -> i <= next_to_sweep s ->
  0 <= i -> is_valid_gc s i = true -> used (objs w) i /\ core m (set_last_swept (unmark s i) i) w.
Proof.
  intros m s w i H Hn Hi Hv.
  pose proof (c_next _ _ _ H) as Hnx. pose proof (c_swept _ _ _ H) as Hsw. prj.
  assert (Hu : used (objs w) i).
  { pose proof (unswept_valid _ _ _ i H) as E. prj. unfold unswept, is_valid_gc in *. prj.
    rewrite Hv in E. specialize (E ltac:(lia) ltac:(lia)). unfold used.
    destruct (objs w i); congruence. }
  split; [exact Hu|].
  destruct H as [Ha Hl Hs Hx Hal Hsl Hlo Hhi Hno]. unfold unmark. prj.
  split; prj; auto; try lia.
  - intros j Hj. specialize (Hsl j Hj). unfold slot, unswept, is_valid_gc in *. prj.
    destruct (Z.eqb_spec j i) as [->|Hne].
    + unfold used in Hu. destruct (objs w i) as [c|]; [|congruence].
      destruct (bits_unmark (flags s i)) as (B1 & B2 & B3 & B4).
      destruct Hsl as (H1 & H2 & H3 & H4 & H5). unfold activeb, otherb in *.
      rewrite B1, B2, B3, B4. replace (i <? i) with false by lia.
      rewrite andb_false_r. auto.
    + replace ((i <? j) && (j <=? next_to_sweep s)) with ((i - 1 <? j) && (j <=? next_to_sweep s)) by lia.
      exact Hsl.
  - intros j Hj. destruct (Z.eq_dec j i) as [->|]; [assumption|]. apply Hlo. lia.
  - intros j Hj. specialize (Hhi j Hj). destruct (j =? i) eqn:E; [|assumption].
    apply Z.eqb_eq in E. subst. rewrite Hhi in *. reflexivity.
Qed.

Lemma core_finished : forall m s w, core m s w ->
  (forall i, 0 <= i < size s -> unswept s i = true -> m = true -> objs w i = None /\ flags s i = 0) ->
  core false (finished_incremental_gc s) w.
Proof.
  intros m s w [Ha Hl Hs Hx Hal Hsl Hlo Hhi Hno] Hdone.
  assert (E : finished_incremental_gc s = set_live_flags s (live_of false (active_flag s))).
  { unfold finished_incremental_gc. pose proof (finished_live m _ Ha) as E.
    rewrite <- Hl in E. destruct (any (live_flags s) F_OLD).
    - rewrite <- E. destruct s; reflexivity.
    - rewrite E. reflexivity. }
  rewrite E. split; prj; auto.
  intros i Hi. specialize (Hsl i Hi). specialize (Hdone i Hi).
  unfold slot, unswept, is_valid_gc in *. prj.
  set (u := (last_swept s <? i) && (i <=? next_to_sweep s)) in *.
  destruct (objs w i) as [c|].
  - destruct Hsl as (H1 & H2 & H3). split; [assumption|]. split; [|assumption].
    rewrite H2. destruct m; [|reflexivity]. destruct u; [|reflexivity].
    destruct Hdone; auto; discriminate.
  - destruct Hsl as [Hy Hsl]. split; [assumption|]. destruct u; [|assumption].
    destruct m.
    + destruct Hdone as [_ ->]; auto.
    + rewrite <- Hl. assumption.
Qed.

(** ** Allocation *)
Lemma alloc_fast_ok : forall n s w i r,
  core false (set_last_swept s (i - 1)) w -> n = Z.to_nat (size s - i) -> 0 <= i ->
  next_to_sweep s < i ->
  alloc_fast n s i = Ok r ->
  exists j, r = (s, j) /\ i <= j < size s /\ objs w j = None /\ core false (set_last_swept s (j - 1)) w.
Proof.
  induction n as [|n IH]; intros s w i r H Hn Hi Hx HE; [discriminate|]. cbn [alloc_fast] in HE.
  pose proof (all_valid _ _ i H) as Hv. prj. specialize (Hv ltac:(lia)).
  unfold is_valid_gc in Hv, HE. prj. rewrite Hv in HE.
  destruct (objs w i) as [c|] eqn:Ho.
  - apply (IH s w (i + 1)) in HE; [| | lia | lia | lia].
    + destruct HE as (j & -> & Hj & H1 & H2). exists j. conj.
    + replace (i + 1 - 1) with i by lia.
      destruct H as [Ha Hl Hs Hx' Hal Hsl Hlo Hhi Hno]. prj. split; prj; auto; try lia.
      * intros j Hj. specialize (Hsl j Hj). unfold slot, unswept, is_valid_gc in *. prj.
        replace ((i <? j) && (j <=? next_to_sweep s)) with false by lia.
        replace ((i - 1 <? j) && (j <=? next_to_sweep s)) with false in Hsl by lia. exact Hsl.
      * intros j Hj. destruct (Z.eq_dec j i) as [->|]; [unfold used; congruence|]. apply Hlo. lia.
  - injection HE as <-. exists i. conj.
Qed.

Lemma sweep_flags : forall s i j, flags (sweep_oop s i) j = if j =? i then 0 else flags s j.
Proof.
  intros s i j. unfold sweep_oop. destruct (Z.eqb_spec (flags s i) 0).
  - destruct (Z.eqb_spec j i) as [->|]; auto.
  - reflexivity.
Qed.

Lemma sweep_rest : forall s i, cont (sweep_oop s i) = cont s /\ size (sweep_oop s i) = size s
  /\ last_allocated (sweep_oop s i) = last_allocated s /\ last_swept (sweep_oop s i) = last_swept s
  /\ next_to_sweep (sweep_oop s i) = next_to_sweep s /\ live_flags (sweep_oop s i) = live_flags s
  /\ active_flag (sweep_oop s i) = active_flag s.
Proof. intros s i. unfold sweep_oop. destruct (flags s i =? 0); repeat split. Qed.

(** Sweeping an OOP that is not in use changes nothing. *)
Lemma core_sweep : forall m s w i, core m s w -> objs w i = None -> core m (sweep_oop s i) w.
Proof.
  intros m s w i H Hn. destruct (sweep_rest s i) as (E1 & E2 & E3 & E4 & E5 & E6 & E7).
  destruct H as [Ha Hl Hs Hx Hal Hsl Hlo Hhi Hno].
  split; rewrite ?E2, ?E3, ?E4, ?E5, ?E6, ?E7; auto.
  - intros j Hj. specialize (Hsl j Hj). unfold slot, unswept, is_valid_gc in *.
    rewrite E1, E4, E5, E6, E7, sweep_flags. destruct (Z.eqb_spec j i) as [->|]; [|exact Hsl].
    rewrite Hn in *. destruct Hsl as [Hy Hsl]. split; [exact Hy|].
    destruct ((last_swept s <? i) && (i <=? next_to_sweep s)); reflexivity.
  - intros j Hj. rewrite sweep_flags. destruct (j =? i); auto.
Qed.

Definition sets_swept (s : table) (k : Z) := set_last_swept s k.

Lemma finished_swept : forall s k,
  finished_incremental_gc (set_last_swept s k) = set_last_swept (finished_incremental_gc s) k.
Proof. intros s k. unfold finished_incremental_gc. prj. destruct (any (live_flags s) F_OLD); reflexivity. Qed.

Lemma finished_next : forall s k,
  finished_incremental_gc (set_next_to_sweep s k) = set_next_to_sweep (finished_incremental_gc s) k.
Proof. intros s k. unfold finished_incremental_gc. prj. destruct (any (live_flags s) F_OLD); reflexivity. Qed.

Lemma finished_rest : forall s, flags (finished_incremental_gc s) = flags s
  /\ cont (finished_incremental_gc s) = cont s /\ size (finished_incremental_gc s) = size s
  /\ last_allocated (finished_incremental_gc s) = last_allocated s
  /\ last_swept (finished_incremental_gc s) = last_swept s
  /\ next_to_sweep (finished_incremental_gc s) = next_to_sweep s
  /\ active_flag (finished_incremental_gc s) = active_flag s.
Proof. intros s. unfold finished_incremental_gc. destruct (any (live_flags s) F_OLD); repeat split. Qed.

Lemma alloc_sweep_ok : forall n m s w i r,
  core m (set_last_swept s (i - 1)) w -> n = Z.to_nat (size s - i) -> 0 <= i <= next_to_sweep s ->
  alloc_sweep n s i = Ok r ->
  exists m' s' j, r = (s', j) /\ i <= j < size s /\ objs w j = None
    /\ core m' (set_last_swept s' (j - 1)) w /\ size s' = size s
    /\ next_to_sweep s' = next_to_sweep s
    /\ active_flag s' = active_flag s
    /\ (m' = true -> j < next_to_sweep s').
Proof.
  induction n as [|n IH]; intros m s w i r H Hn Hi HE; [discriminate|]. cbn [alloc_sweep] in HE.
  destruct (is_valid_gc s i) eqn:Hv.
  - destruct (unmark_up _ _ _ _ H ltac:(lia) ltac:(lia) Hv) as [Hu H'].
    destruct (Z.leb_spec (next_to_sweep (unmark s i)) i) as [Hle|Hlt].
    + unfold unmark in Hle. prj.
      destruct (finished_rest (unmark s i)) as (F1 & F2 & F3 & F4 & F5 & F6 & F7).
      assert (Hc : core false (set_last_swept (finished_incremental_gc (unmark s i)) i) w).
      { rewrite <- finished_swept. eapply core_finished; [exact H'|].
        intros j Hj Hun. unfold unswept, unmark in Hun. prj. lia. }
      apply alloc_fast_ok with (w := w) in HE.
      * destruct HE as (j & -> & Hj & H1 & H2).
        exists false, (finished_incremental_gc (unmark s i)), j.
        rewrite F3 in *. unfold unmark in *. prj.
        conj.
      * replace (i + 1 - 1) with i by lia. exact Hc.
      * rewrite F3. unfold unmark. prj. lia.
      * lia.
      * rewrite F6. unfold unmark. prj. lia.
    + apply (IH m (unmark s i) w (i + 1)) in HE.
      * destruct HE as (m' & s' & j & -> & Hj & H1 & H2 & H3 & H4 & H5 & H6).
        exists m', s', j. unfold unmark in *. prj. conj.
      * replace (i + 1 - 1) with i by lia. exact H'.
      * unfold unmark. prj. lia.
      * unfold unmark in *. prj. lia.
  - assert (Hno : objs w i = None).
    { pose proof (unswept_valid _ _ _ i H) as E. unfold unswept, is_valid_gc in *. prj.
      rewrite Hv in E. pose proof (c_next _ _ _ H). prj. specialize (E ltac:(lia) ltac:(lia)).
      destruct (objs w i); congruence. }
    destruct (sweep_rest s i) as (E1 & E2 & E3 & E4 & E5 & E6 & E7). rewrite E5 in HE.
    pose proof (c_next _ _ _ H) as Hx. prj.
    assert (Hc : core m (set_last_swept (sweep_oop s i) (i - 1)) w).
    { pose proof (core_sweep _ _ _ i H Hno) as Hc. unfold sweep_oop in *. prj.
      destruct (flags s i =? 0); exact Hc. }
    injection HE as <-.
    destruct (Z.leb_spec (next_to_sweep s) i) as [Hle|Hlt].
    + destruct (finished_rest (sweep_oop s i)) as (F1 & F2 & F3 & F4 & F5 & F6 & F7).
      exists false, (finished_incremental_gc (sweep_oop s i)), i.
      split; [reflexivity|]. split; [lia|]. split; [assumption|].
      split.
      * rewrite <- finished_swept. eapply core_finished; [exact Hc|].
        intros j Hj Hun _. unfold unswept in Hun. prj. rewrite E5 in Hun.
        assert (j = i) by lia. subst j. split; [assumption|].
        rewrite sweep_flags, Z.eqb_refl. reflexivity.
      * repeat split; congruence || discriminate.
    + exists m, (sweep_oop s i), i. conj.
Qed.

(** The object is put in the slot. *)
Lemma core_put : forall m s w j c f y,
  core m (set_last_swept s (j - 1)) w -> 0 <= j < size s ->
  reachb f = false -> oldb f = negb y -> activeb (active_flag s) f = y ->
  otherb (active_flag s) f = false ->
  let s1 := if last_allocated s <? j then set_last_allocated (set_last_swept s j) j
            else set_last_swept s j in
  core m (Table (fun k => if k =? j then f else flags s1 k)
                (fun k => if k =? j then c else cont s1 k)
                (size s1) (last_allocated s1) (last_swept s1) (next_to_sweep s1)
                (live_flags s1) (active_flag s1))
         (World (fun k => if k =? j then Some c else objs w k)
                (fun k => if k =? j then y else young w k)).
Proof.
  intros m s w j c f y [Ha Hl Hs Hx Hal Hsl Hlo Hhi Hno] Hj Hr Ho Hac Hot s1. prj.
  assert (E : flags s1 = flags s /\ cont s1 = cont s /\ size s1 = size s
    /\ last_allocated s1 = Z.max (last_allocated s) j /\ last_swept s1 = j
    /\ next_to_sweep s1 = next_to_sweep s /\ live_flags s1 = live_flags s
    /\ active_flag s1 = active_flag s).
  { unfold s1. destruct (Z.ltb_spec (last_allocated s) j); prj; repeat split; lia. }
  destruct E as (E1 & E2 & E3 & E4 & E5 & E6 & E7 & E8).
  rewrite E1, E2, E3, E4, E5, E6, E7, E8.
  split; prj; cbn [objs young]; auto; try lia.
  - intros i Hi. specialize (Hsl i Hi). unfold slot, unswept, is_valid_gc in *. prj.
    cbn [objs young]. destruct (Z.eqb_spec i j) as [->|Hne].
    + rewrite Hr, Ho, Hac, Hot. replace (j <? j) with false by lia.
      cbn [andb]. rewrite andb_false_r. auto.
    + replace ((j <? i) && (i <=? next_to_sweep s))
        with ((j - 1 <? i) && (i <=? next_to_sweep s)) by lia. exact Hsl.
  - intros i Hi. unfold used. destruct (Z.eqb_spec i j); [discriminate|]. apply Hlo. lia.
  - intros i Hi. destruct (Z.eqb_spec i j); [lia|]. apply Hhi. lia.
  - intros i Hi. destruct (Z.eqb_spec i j); [lia|]. auto.
Qed.

Lemma alloc_ok : forall s w c f y r,
  inv s w -> alloc_oop s c f = Ok r ->
  reachb f = false -> oldb f = negb y -> activeb (active_flag s) f = y ->
  otherb (active_flag s) f = false ->
  exists s' j, r = (s', j) /\ lowest_free (objs w) j /\ size s' = size s
    /\ inv s' (World (fun k => if k =? j then Some c else objs w k)
                     (fun k => if k =? j then y else young w k)).
Proof.
  intros s w c f y r (m & H & Hst) HE Hr Ho Hac Hot. unfold alloc_oop in HE.
  pose proof (core_swept_bound _ _ _ H) as Hsb. pose proof (c_swept _ _ _ H) as Hsw.
  assert (Hc0 : core m (set_last_swept s (last_swept s + 1 - 1)) w).
  { replace (last_swept s + 1 - 1) with (last_swept s) by lia. destruct s; exact H. }
  assert (HX : exists m' s1 j,
    (if last_swept s + 1 <=? next_to_sweep s
     then alloc_sweep (Z.to_nat (size s - (last_swept s + 1))) s (last_swept s + 1)
     else alloc_fast (Z.to_nat (size s - (last_swept s + 1))) s (last_swept s + 1)) = Ok (s1, j)
    /\ last_swept s + 1 <= j < size s /\ objs w j = None
    /\ core m' (set_last_swept s1 (j - 1)) w /\ size s1 = size s
    /\ active_flag s1 = active_flag s
    /\ (m' = true -> next_to_sweep s1 <= j -> forall i, j < i -> objs w i = None)).
  { destruct (Z.leb_spec (last_swept s + 1) (next_to_sweep s)) as [Hle|Hgt].
    - destruct (alloc_sweep _ s (last_swept s + 1)) as [r1| | | |] eqn:EA; try discriminate.
      apply alloc_sweep_ok with (m := m) (w := w) in EA; try exact Hc0; try lia.
      destruct EA as (m' & s1 & j & -> & Hj & H1 & H2 & H3 & H4 & H5 & H6).
      exists m', s1, j. split; [reflexivity|]. conj.
    - destruct (alloc_fast _ s (last_swept s + 1)) as [r1| | | |] eqn:EA; try discriminate.
      destruct m.
      + assert (Hnone : forall i, last_swept s < i -> objs w i = None).
        { apply Hst; [reflexivity|]. unfold incremental_gc_running. lia. }
        destruct (Z.to_nat (size s - (last_swept s + 1))) eqn:En; [discriminate|].
        cbn [alloc_fast] in EA.
        assert (Hv : is_valid_gc s (last_swept s + 1) = false).
        { eapply zero_dead; [apply (c_space _ _ _ H)|apply (c_live _ _ _ H)|].
          pose proof (c_slot _ _ _ H (last_swept s + 1) ltac:(lia)) as Hs. unfold slot in Hs.
          rewrite Hnone in Hs by lia. destruct Hs as [_ Hs].
          unfold unswept in Hs. replace (last_swept s + 1 <=? next_to_sweep s) with false in Hs by lia.
          rewrite andb_false_r in Hs. exact Hs. }
        rewrite Hv in EA. injection EA as <-.
        exists true, s, (last_swept s + 1). split; [reflexivity|].
        split; [lia|]. split; [apply Hnone; lia|]. split; [exact Hc0|].
        repeat split. intros _ _ i Hi. apply Hnone. lia.
      + apply alloc_fast_ok with (w := w) in EA; try exact Hc0; try lia.
        destruct EA as (j & -> & Hj & H1 & H2).
        exists false, s, j. split; [reflexivity|]. conj. }
  destruct HX as (m' & s1 & j & EA & Hj & Hno & Hc & Hsz & Hact & Hstale).
  rewrite EA in HE. cbn [obind] in HE.
  injection HE as <-. eexists _, j. split; [reflexivity|].
  assert (Hlf : lowest_free (objs w) j).
  { split; [lia|]. split; [assumption|]. intros k Hk. apply (c_low _ _ _ Hc). prj. lia. }
  split; [exact Hlf|].
  pose proof (core_put m' s1 w j c f y Hc ltac:(lia) Hr Ho ltac:(congruence) ltac:(congruence)) as HP.
  cbn zeta in HP.
  split; [prj; destruct (last_allocated s1 <? j); prj; assumption|].
  exists m'. split.
  - prj. destruct (last_allocated s1 <? j); prj; exact HP.
  - intros Hm Hrun i Hi. unfold incremental_gc_running in Hrun. prj. cbn [objs].
    assert (next_to_sweep s1 <= j) by (destruct (last_allocated s1 <? j); prj; lia).
    assert (j < i) by (destruct (last_allocated s1 <? j); prj; lia).
    destruct (Z.eqb_spec i j); [lia|]. auto.
Qed.

(** ** The sweep *)
Lemma free_flags : forall s i j, flags (free_oop s i) j = if j =? i then 0 else flags s j.
Proof.
  intros s i j. unfold free_oop.
  destruct (i =? last_allocated (sweep_oop s i)); prj; apply sweep_flags.
Qed.

Lemma free_rest : forall s i, cont (free_oop s i) = cont s /\ size (free_oop s i) = size s
  /\ last_swept (free_oop s i) = last_swept s
  /\ next_to_sweep (free_oop s i) = next_to_sweep s /\ live_flags (free_oop s i) = live_flags s
  /\ active_flag (free_oop s i) = active_flag s
  /\ last_allocated (free_oop s i)
     = if i =? last_allocated s then last_allocated s - 1 else last_allocated s.
Proof.
  intros s i. destruct (sweep_rest s i) as (E1 & E2 & E3 & E4 & E5 & E6 & E7).
  unfold free_oop. rewrite E3. destruct (i =? last_allocated s); prj; conj.
Qed.

(** Lowering the upper end of the range by one. *)
Lemma sweep_down : forall m s w i, core m (set_next_to_sweep s i) w -> last_swept s < i ->
  i < size s ->
  let s' := if is_valid_gc s i then unmark s i else free_oop s i in
  core m (set_next_to_sweep s' (i - 1)) w /\ size s' = size s /\ last_swept s' = last_swept s.
Proof.
  intros m s w i H Hlt Hsz s'.
  pose proof (c_swept _ _ _ H) as Hsw. prj.
  pose proof (unswept_valid _ _ _ i H) as E. unfold unswept in E. prj.
  specialize (E ltac:(lia) ltac:(lia)). unfold is_valid_gc in E. prj.
  unfold s'. unfold is_valid_gc. rewrite E.
  destruct H as [Ha Hl Hs Hx Hal Hsl Hlo Hhi Hno]. prj.
  destruct (objs w i) as [c|] eqn:Ho; unfold unmark; prj.
  - split; [|auto]. split; prj; auto; try lia.
    + intros j Hj. specialize (Hsl j Hj). unfold slot, unswept, is_valid_gc in *. prj.
      destruct (Z.eqb_spec j i) as [->|Hne].
      * rewrite Ho in *. destruct (bits_unmark (flags s i)) as (B1 & B2 & B3 & B4).
        destruct Hsl as (H1 & H2 & H3 & H4 & H5). unfold activeb, otherb in *.
        rewrite B1, B2, B3, B4. replace (i <=? i - 1) with false by lia.
        rewrite !andb_false_r. auto.
      * replace ((last_swept s <? j) && (j <=? i - 1)) with ((last_swept s <? j) && (j <=? i)) by lia.
        exact Hsl.
    + intros j Hj. specialize (Hhi j Hj). destruct (j =? i) eqn:E'; [|assumption].
      apply Z.eqb_eq in E'. subst. rewrite Hhi in *. reflexivity.
  - destruct (free_rest s i) as (E1 & E2 & E4 & E5 & E6 & E7 & E3).
    split; [|auto]. split; prj; rewrite ?E1, ?E2, ?E4, ?E5, ?E6, ?E7; auto; try lia.
    + rewrite E3. destruct (Z.eqb_spec i (last_allocated s)); lia.
    + intros j Hj. specialize (Hsl j Hj). unfold slot, unswept, is_valid_gc in *. prj.
      rewrite E1, E4, E6, E7, free_flags. destruct (Z.eqb_spec j i) as [->|].
      * rewrite Ho in *. destruct Hsl as [Hy Hsl]. split; [exact Hy|].
        destruct ((last_swept s <? i) && (i <=? i - 1)); reflexivity.
      * replace ((last_swept s <? j) && (j <=? i - 1)) with ((last_swept s <? j) && (j <=? i)) by lia.
        exact Hsl.
    + intros j Hj. rewrite free_flags, E3 in *.
      destruct (Z.eqb_spec j i); [reflexivity|]. apply Hhi.
      destruct (Z.eqb_spec i (last_allocated s)); lia.
Qed.

Lemma finish_loop_ok : forall n m s w i, core m (set_next_to_sweep s i) w -> i < size s ->
  n = Z.to_nat (i - last_swept s) ->
  let '(s', j) := finish_loop n s i in
  core m (set_next_to_sweep s' j) w /\ size s' = size s /\ last_swept s' = last_swept s
  /\ j <= last_swept s.
Proof.
  induction n as [|n IH]; intros m s w i H Hi Hn; cbn [finish_loop].
  - conj.
  - destruct (sweep_down m s w i H ltac:(lia) Hi) as (H1 & H2 & H3).
    destruct (is_valid_gc s i).
    + specialize (IH m (unmark s i) w (i - 1) H1 ltac:(lia) ltac:(lia)).
      destruct (finish_loop n (unmark s i) (i - 1)) as [s' j]. destruct IH as (I1 & I2 & I3 & I4). conj.
    + specialize (IH m (free_oop s i) w (i - 1) H1 ltac:(lia) ltac:(lia)).
      destruct (finish_loop n (free_oop s i) (i - 1)) as [s' j]. destruct IH as (I1 & I2 & I3 & I4). conj.
Qed.

Lemma set_next_same : forall s, set_next_to_sweep s (next_to_sweep s) = s.
Proof. intros []; reflexivity. Qed.

Lemma inv_false : forall s w, core false s w -> inv s w.
Proof. intros s w H. exists false. split; [exact H|]. intros E. discriminate. Qed.

Lemma finish_ok : forall s w, inv s w ->
  core false (finish_incremental_gc s) w /\ size (finish_incremental_gc s) = size s
  /\ incremental_gc_running (finish_incremental_gc s) = false.
Proof.
  intros s w (m & H & _). unfold finish_incremental_gc.
  pose proof (finish_loop_ok (Z.to_nat (next_to_sweep s - last_swept s)) m s w (next_to_sweep s)) as L.
  rewrite set_next_same in L. specialize (L H (c_next _ _ _ H) eq_refl).
  destruct (finish_loop _ s (next_to_sweep s)) as [s' j]. destruct L as (L1 & L2 & L3 & L4).
  destruct (finished_rest (set_next_to_sweep s' j)) as (F1 & F2 & F3 & F4 & F5 & F6 & F7).
  split; [|split].
  - eapply core_finished; [exact L1|]. intros i Hi Hu. unfold unswept in Hu. prj. lia.
  - rewrite F3. prj. exact L2.
  - unfold incremental_gc_running. rewrite F5, F6. prj. lia.
Qed.

(** Nothing dead is left when nothing is being swept. *)
Lemma swept_exactly : forall m s w, core m s w -> incremental_gc_running s = false ->
  forall i, 0 <= i < size s -> (flags s i = 0 <-> objs w i = None).
Proof.
  intros m s w H Hr i Hi. unfold incremental_gc_running in Hr.
  pose proof (c_slot _ _ _ H i Hi) as Hs. unfold slot, unswept in Hs.
  replace ((last_swept s <? i) && (i <=? next_to_sweep s)) with false in Hs by lia.
  destruct (objs w i) as [c|]; [|tauto].
  destruct Hs as (_ & _ & Ho & Ha & _). split; [|discriminate]. intros Hf.
  rewrite Hf in *. unfold activeb, oldb, evenb, oddb in *. rewrite !Z.bits_0 in *.
  destruct (young w i); [|discriminate]. destruct (active_flag s =? F_EVEN); discriminate.
Qed.

Lemma step_loop_ok : forall n m k s w i, core m (set_next_to_sweep s i) w -> i < size s ->
  n = Z.to_nat (i - last_swept s) ->
  match step_loop n k s i with
  | inl s' => core m s' w /\ size s' = size s
  | inr (s', j) => core m (set_next_to_sweep s' j) w /\ size s' = size s
                   /\ last_swept s' = last_swept s /\ j <= last_swept s
  end.
Proof.
  induction n as [|n IH]; intros m k s w i H Hi Hn; cbn [step_loop].
  - conj.
  - destruct (sweep_down m s w i H ltac:(lia) Hi) as (H1 & H2 & H3).
    destruct (is_valid_gc s i).
    + specialize (IH m k (unmark s i) w (i - 1) H1 ltac:(lia) ltac:(lia)).
      destruct (step_loop n k (unmark s i) (i - 1)) as [s'|[s' j]]; [tauto|].
      destruct IH as (I1 & I2 & I3 & I4). conj.
    + destruct (k + 1 =? INCREMENTAL_SWEEP_STEP).
      * split; [exact H1|]. prj. exact H2.
      * specialize (IH m (k + 1) (free_oop s i) w (i - 1) H1 ltac:(lia) ltac:(lia)).
        destruct (step_loop n (k + 1) (free_oop s i) (i - 1)) as [s'|[s' j]]; [destruct IH; conj|].
        destruct IH as (I1 & I2 & I3 & I4). conj.
Qed.

Lemma step_ok : forall s w, inv s w ->
  let '(s', b) := incremental_gc_step s in
  (b = false -> incremental_gc_running s' = true) ->
  inv s' w /\ size s' = size s /\ (b = true -> incremental_gc_running s' = false).
Proof.
  intros s w Hinv. pose proof Hinv as (m & H & Hst). unfold incremental_gc_step.
  destruct (incremental_gc_running s) eqn:Hr; cbn [negb]; [|auto].
  pose proof (step_loop_ok (Z.to_nat (next_to_sweep s - last_swept s)) m 0 s w (next_to_sweep s)) as L.
  rewrite set_next_same in L. specialize (L H (c_next _ _ _ H) eq_refl).
  destruct (step_loop _ 0 s (next_to_sweep s)) as [s'|[s' j]].
  - intros Hrun. destruct L as (L1 & L2).
    split; [|split; [exact L2|discriminate]]. exists m. split; [exact L1|].
    intros _ Hr'. rewrite Hrun in Hr' by reflexivity. discriminate.
  - intros _. destruct L as (L1 & L2 & L3 & L4).
    destruct (finished_rest (set_next_to_sweep s' j)) as (F1 & F2 & F3 & F4 & F5 & F6 & F7).
    split; [|split].
    + apply inv_false. eapply core_finished; [exact L1|].
      intros i Hi Hu. unfold unswept in Hu. prj. lia.
    + rewrite F3. prj. exact L2.
    + intros _. unfold incremental_gc_running. rewrite F5, F6. prj. lia.
Qed.

(** ** The beginning of a sweep *)
Lemma reset_up_ok : forall n m s w i r,
  core m (set_last_swept s (i - 1)) w -> next_to_sweep s = size s - 1 ->
  n = Z.to_nat (size s - i) -> 0 <= i ->
  reset_up n s i = Ok r ->
  exists s' j, r = (s', j) /\ core m (set_last_swept s' (j - 1)) w /\ objs w j = None
    /\ size s' = size s /\ next_to_sweep s' = next_to_sweep s /\ last_allocated s' = last_allocated s
    /\ 0 <= j.
Proof.
  induction n as [|n IH]; intros m s w i r H Hx Hn Hi HE; [discriminate|]. cbn [reset_up] in HE.
  destruct (is_valid_gc s i) eqn:Hv.
  - destruct (unmark_up _ _ _ _ H ltac:(lia) ltac:(lia) Hv) as [Hu H'].
    apply (IH m (unmark s i) w (i + 1)) in HE.
    + destruct HE as (s' & j & -> & H1 & H2 & H3 & H4 & H5 & H6). exists s', j.
      unfold unmark in *. prj. conj.
    + replace (i + 1 - 1) with i by lia. exact H'.
    + unfold unmark. prj. exact Hx.
    + unfold unmark. prj. lia.
    + lia.
  - injection HE as <-. exists s, i. conj.
    pose proof (unswept_valid _ _ _ i H) as E. unfold unswept, is_valid_gc in *. prj.
    rewrite Hv in E. specialize (E ltac:(lia) ltac:(lia)). destruct (objs w i); congruence.
Qed.

(** The slots above the last one in use need not be swept. *)
Lemma core_next : forall m s w k, core m s w -> last_allocated s <= k <= next_to_sweep s ->
  core m (set_next_to_sweep s k) w.
Proof.
  intros m s w k [Ha Hl Hs Hx Hal Hsl Hlo Hhi Hno] Hk.
  split; prj; auto; try lia.
  intros i Hi. specialize (Hsl i Hi). unfold slot, unswept, is_valid_gc in *. prj.
  destruct (Z_le_gt_dec i k) as [Hle|Hgt].
  - replace ((last_swept s <? i) && (i <=? k)) with ((last_swept s <? i) && (i <=? next_to_sweep s)) by lia.
    exact Hsl.
  - specialize (Hhi i ltac:(lia)). rewrite Hhi in *.
    destruct (objs w i) as [c|].
    + destruct Hsl as (_ & _ & Ho & Hac & _). unfold activeb, oldb, evenb, oddb in *.
      rewrite !Z.bits_0 in *. destruct (young w i); [|discriminate].
      destruct (active_flag s =? F_EVEN); discriminate.
    + destruct Hsl as [Hy _]. split; [exact Hy|].
      destruct ((last_swept s <? i) && (i <=? k)); reflexivity.
Qed.

(** IS_OOP_VALID tells the objects from the slots that are not in use. *)
Lemma is_valid_ok : forall m s w i, core m s w -> 0 <= i < size s ->
  is_valid s i = match objs w i with Some _ => true | None => false end.
Proof.
  intros m s w i H Hi. unfold is_valid.
  pose proof (c_slot _ _ _ H i Hi) as Hs. unfold slot in Hs.
  rewrite any_old, (c_live _ _ _ H), any_live by apply (c_space _ _ _ H).
  pose proof (unswept_valid _ _ _ i H Hi) as Hu. unfold is_valid_gc in *.
  rewrite (c_live _ _ _ H), any_live in Hu by apply (c_space _ _ _ H).
  destruct (unswept s i) eqn:Eu.
  - rewrite Hu by reflexivity. destruct (objs w i); [reflexivity|].
    unfold unswept in Eu. replace (i <=? last_swept s) with false by lia.
    replace (next_to_sweep s <? i) with false by lia. rewrite andb_false_r. reflexivity.
  - destruct (objs w i) as [c|].
    + destruct Hs as (_ & _ & Ho & Ha & _). rewrite Ho, Ha. unfold unswept in Eu.
      destruct (young w i); cbn [negb andb orb]; [rewrite orb_true_r; reflexivity|].
      replace ((i <=? last_swept s) || (next_to_sweep s <? i)) with true by lia.
      rewrite orb_true_r. reflexivity.
    + destruct Hs as [_ Hs]. rewrite Hs. unfold activeb, oldb, reachb, evenb, oddb. rewrite !Z.bits_0.
      destruct m, (active_flag s =? F_EVEN); reflexivity.
Qed.

Lemma reset_down_ok : forall n m s w i,
  core m s w -> (forall k, i < k < size s -> flags s k = 0) ->
  -1 <= i < size s -> n = Z.to_nat (i + 1) ->
  let '(s', j) := reset_down n s i in
  core m s' w /\ -1 <= j <= i /\ (forall k, j < k < size s -> flags s' k = 0)
  /\ size s' = size s /\ last_swept s' = last_swept s /\ next_to_sweep s' = next_to_sweep s
  /\ last_allocated s' = last_allocated s.
Proof.
  induction n as [|n IH]; intros m s w i H Hz Hi Hn; cbn [reset_down].
  - conj.
  - rewrite (is_valid_ok _ _ _ _ H) by lia.
    destruct (objs w i) as [c|] eqn:Ho; [conj|].
    destruct (sweep_rest s i) as (E1 & E2 & E3 & E4 & E5 & E6 & E7).
    specialize (IH m (sweep_oop s i) w (i - 1) (core_sweep _ _ _ _ H Ho)).
    rewrite E2, E3, E4, E5 in IH.
    destruct (reset_down n (sweep_oop s i) (i - 1)) as [s' j].
    destruct IH as (I1 & I2 & I3 & I4 & I5 & I6 & I7).
    + intros k Hk. rewrite sweep_flags. destruct (Z.eqb_spec k i); [reflexivity|]. apply Hz. lia.
    + lia.
    + lia.
    + conj.
Qed.

Lemma reset_ok : forall m s w s',
  core m (set_next_to_sweep (set_last_swept s (-1)) (size s - 1)) w ->
  reset_incremental_gc s = Ok s' -> inv s' w /\ size s' = size s.
Proof.
  intros m s w s' H HE. unfold reset_incremental_gc in HE.
  assert (HX : reset_up (Z.to_nat (size s)) (set_next_to_sweep s (size s - 1)) 0
               = match reset_up (Z.to_nat (size s)) s 0 with
                 | Ok (s1, j) => Ok (set_next_to_sweep s1 (size s - 1), j)
                 | Err => Err | UB => UB | Abort => Abort | OutOfFuel => OutOfFuel end).
  { generalize (Z.to_nat (size s)) 0. generalize (size s - 1). clear.
    intros k n. revert s. induction n as [|n IH]; intros s i; cbn [reset_up]; [reflexivity|].
    unfold is_valid_gc. prj. destruct (any (flags s i) (live_flags s)); [|reflexivity].
    rewrite <- IH. reflexivity. }
  destruct (reset_up (Z.to_nat (size s)) s 0) as [[s1 j]| | | |] eqn:EU; try discriminate.
  apply reset_up_ok with (m := m) (w := w) in HX;
    [|replace (0 - 1) with (-1) by lia; exact H|reflexivity|prj; f_equal; lia|lia].
  destruct HX as (s2 & j' & E & HX & Hnone & Hsz & Hnx & Hla & Hj). injection E as <- <-.
  cbn [obind] in HE. prj. clear EU.
  set (s3 := set_last_swept (set_next_to_sweep s1 (last_allocated s1)) (j - 1)) in *.
  assert (H3 : core m s3 w).
  { unfold s3.
    pose proof (core_next m _ w (last_allocated s1) HX) as HN. prj.
    apply HN. pose proof (c_alloc _ _ _ HX). prj. lia. }
  pose proof (reset_down_ok (Z.to_nat (last_allocated s3 + 1)) m s3 w (last_allocated s3) H3) as HD.
  specialize (HD (c_high _ _ _ H3)). pose proof (c_alloc _ _ _ H3) as Hal.
  specialize (HD ltac:(lia) eq_refl).
  change (last_allocated s1) with (last_allocated s3) in HE.
  destruct (reset_down _ s3 (last_allocated s3)) as [s4 q].
  destruct HD as (D1 & D2 & D3 & D4 & D5 & D6 & D7). injection HE as <-.
  assert (Hszs : size s3 = size s) by exact Hsz.
  assert (H4 : core m (set_last_allocated s4 q) w).
  { destruct D1 as [Ha Hl Hs Hx Hal' Hsl Hlo Hhi Hno]. split; prj; auto; try lia; intros k Hk; apply D3; lia. }
  split; [|prj; lia].
  exists m. split.
  - apply core_next with (k := q) in H4; [exact H4|]. prj. rewrite D6. unfold s3. prj.
    change (last_allocated s3) with (last_allocated s1) in D2. lia.
  - intros _ Hr i Hi. unfold incremental_gc_running in Hr. prj.
    destruct (Z_lt_le_dec i (size s4)) as [Hlt|Hge].
    + assert (Hf : flags s4 i = 0) by (apply D3; lia).
      pose proof (c_slot _ _ _ D1 i) as Hs. pose proof (c_swept _ _ _ D1).
      specialize (Hs ltac:(lia)). unfold slot in Hs. rewrite Hf in Hs.
      destruct (objs w i) as [c|]; [|reflexivity].
      destruct Hs as (_ & _ & Ho & Ha & _). unfold activeb, oldb, evenb, oddb in *.
      rewrite !Z.bits_0 in *. destruct (young w i); [|discriminate].
      destruct (active_flag s4 =? F_EVEN); discriminate.
    + apply (c_none _ _ _ D1). lia.
Qed.

(** ** Collections *)
Lemma flip_space : forall a, is_space a -> is_space (Z.lxor a F_SPACES).
Proof. intros a [-> | ->]; [right|left]; reflexivity. Qed.

Lemma flip_live : forall a, is_space a ->
  Z.lxor (live_of false a) F_SPACES = live_of false (Z.lxor a F_SPACES).
Proof. intros a [-> | ->]; reflexivity. Qed.

Lemma flip_active : forall a f, is_space a ->
  activeb (Z.lxor a F_SPACES) f = otherb a f /\ otherb (Z.lxor a F_SPACES) f = activeb a f.
Proof. intros a f [-> | ->]; split; reflexivity. Qed.

Lemma copied_bits : forall a (keep tenure : bool) f, is_space a -> oldb f = false ->
  otherb a f = true -> activeb a f = false -> keep = true ->
  let f' := copied a keep tenure f in
  oldb f' = tenure /\ activeb a f' = negb tenure /\ otherb a f' = false /\ reachb f' = reachb f.
Proof.
  intros a keep tenure f Ha Ho Hot Hac -> f'.
  assert (Hsp : any f F_SPACES = true).
  { rewrite any_spaces. unfold otherb in Hot. destruct (a =? F_EVEN); rewrite Hot; auto using orb_true_r. }
  unfold f', copied. rewrite any_old, Ho, Hsp. cbn [negb].
  unfold oldb, activeb, otherb, evenb, oddb, reachb in *.
  destruct Ha as [-> | ->]; destruct tenure; cbn [negb Z.eqb] in *;
    repeat rewrite ?Z.lor_spec, ?Z.ldiff_spec;
    repeat match goal with
    | |- context [Z.testbit ?c ?k] =>
        let v := eval vm_compute in (Z.testbit c k) in
        match v with true => idtac | false => idtac end;
        change (Z.testbit c k) with v
    end; rewrite ?Ho; cbn [F_EVEN F_ODD Z.eqb Pos.eqb negb andb orb] in *; rewrite ?Ho, ?Hot, ?Hac;
    cbn [negb andb orb];
    rewrite ?andb_true_r, ?andb_false_r, ?orb_false_r, ?orb_true_r; auto.
Qed.

Lemma copied_old : forall a keep tenure f, oldb f = true -> copied a keep tenure f = f.
Proof. intros a k t f H. unfold copied. rewrite any_old, H. reflexivity. Qed.

Lemma copied_lost : forall a tenure f, copied a false tenure f = f.
Proof.
  intros a t f. unfold copied. destruct (any f F_OLD); [reflexivity|].
  destruct (any f F_SPACES); reflexivity.
Qed.

Lemma copied_zero : forall a keep tenure, copied a keep tenure 0 = 0.
Proof. reflexivity. Qed.

Definition scavenged (w : world) (keep tenure : Z -> bool) : world :=
  World (fun j => if young w j && negb (keep j) then None else objs w j)
        (fun j => young w j && keep j && negb (tenure j)).

(** After the copy, nothing is swept but what is alive can be told. *)
Lemma core_copy : forall s w keep tenure, core false s w -> incremental_gc_running s = false ->
  core false (set_next_to_sweep (set_last_swept (copy_oops s keep tenure) (-1)) (size s - 1))
       (scavenged w keep tenure).
Proof.
  intros s w keep tenure H Hr. unfold incremental_gc_running in Hr.
  destruct H as [Ha Hl Hs Hx Hal Hsl Hlo Hhi Hno]. unfold copy_oops, scavenged.
  set (a := active_flag s) in *. pose proof (flip_space a Ha) as Hfa.
  split; prj; cbn [objs young]; auto; try lia.
  - rewrite Hl. apply flip_live, Ha.
  - intros i Hi. specialize (Hsl i Hi). unfold slot, unswept, is_valid_gc in *. prj. cbn [objs young].
    fold a. fold a in Hsl.
    replace ((-1 <? i) && (i <=? size s - 1)) with true by lia.
    replace ((last_swept s <? i) && (i <=? next_to_sweep s)) with false in Hsl by lia.
    rewrite Hl, flip_live, any_live by assumption.
    set (a' := Z.lxor a F_SPACES) in *.
    destruct (flip_active a (flags s i) Ha) as [X1 X2].
    destruct (objs w i) as [c|].
    + destruct Hsl as (H1 & H2 & H3 & H4 & H5). cbn [andb] in H2.
      destruct (young w i) eqn:Ey; cbn [andb negb] in *.
      * destruct (keep i) eqn:Ek; cbn [negb andb].
        -- destruct (copied_bits a' true (tenure i) (flags s i) Hfa H3) as (C1 & C2 & C3 & C4);
             try (unfold a'; congruence); try reflexivity.
           rewrite C1, C2, C3, C4, H2. rewrite negb_involutive. auto.
        -- split; [reflexivity|]. rewrite copied_lost, H3. fold a' in X1. rewrite X1. exact H5.
      * rewrite copied_old by assumption. unfold a'. rewrite H2, H3, X1, X2. auto.
    + destruct Hsl as [Hy Hsl]. rewrite Hsl, Hy. cbn [andb].
      split; [reflexivity|]. rewrite copied_zero. unfold activeb, oldb, evenb, oddb. rewrite !Z.bits_0.
      destruct (a' =? F_EVEN); reflexivity.
  - intros i Hi. rewrite Hhi by assumption. reflexivity.
  - intros i Hi. destruct (Hno i Hi) as [-> ->]. split; reflexivity.
Qed.

Lemma scavenge_ok : forall s w keep tenure s', inv s w -> scavenge s keep tenure = Ok s' ->
  inv s' (scavenged w keep tenure) /\ size s' = size s.
Proof.
  intros s w keep tenure s' H HE. unfold scavenge in HE.
  destruct (finish_ok s w H) as (F1 & F2 & F3).
  apply reset_ok with (m := false) (w := scavenged w keep tenure) in HE.
  - destruct HE as [HE1 HE2]. split; [exact HE1|]. rewrite HE2. unfold copy_oops. prj. exact F2.
  - exact (core_copy _ w keep tenure F1 F3).
Qed.

Definition collected (w : world) (keep : Z -> bool) : world :=
  World (fun j => if keep j then objs w j else None) (fun _ => false).

Lemma core_mark : forall s w keep, core false s w -> last_swept s = -1 -> next_to_sweep s = size s - 1 ->
  (forall i, young w i = false) -> (forall i, 0 <= i < size s -> reachb (flags s i) = false) ->
  core true (set_live_flags (mark_oops s keep)
               (Z.lor (Z.ldiff (live_flags s) F_OLD) F_REACHABLE)) (collected w keep).
Proof.
  intros s w keep [Ha Hl Hs Hx Hal Hsl Hlo Hhi Hno] E1 E2 Hy Hrf. unfold mark_oops, collected.
  assert (HL : Z.lor (Z.ldiff (live_flags s) F_OLD) F_REACHABLE = live_of true (active_flag s)).
  { rewrite Hl. destruct Ha as [-> | ->]; reflexivity. }
  split; prj; cbn [objs young]; auto; try lia.
  - intros i Hi. specialize (Hsl i Hi). unfold slot, unswept, is_valid_gc in *. prj. cbn [objs young].
    specialize (Hy i). specialize (Hrf i Hi). rewrite E1, E2 in *.
    replace ((-1 <? i) && (i <=? size s - 1)) with true in * by lia.
    rewrite HL, any_live by assumption. rewrite any_old.
    rewrite Hl, any_live in Hsl by assumption.
    destruct (objs w i) as [c|].
    + destruct Hsl as (H1 & H2 & H3 & H4 & H5). rewrite Hy in *. cbn [negb] in *.
      destruct (keep i); cbn [andb].
      * rewrite H3. unfold oldb, reachb, activeb, otherb, evenb, oddb in *.
        rewrite !Z.lor_spec. rewrite H3.
        change (Z.testbit F_REACHABLE 8) with false. change (Z.testbit F_REACHABLE 18) with false.
        change (Z.testbit F_REACHABLE 17) with false. change (Z.testbit F_REACHABLE 23) with true.
        rewrite !orb_false_r, orb_true_r. auto.
      * split; [reflexivity|]. rewrite H2, H4. reflexivity.
    + destruct Hsl as [_ Hsl]. apply orb_false_iff in Hsl. destruct Hsl as [Ho Hac].
      rewrite Ho, andb_false_r, Hrf, Hac. destruct (keep i); split; reflexivity.
  - intros i Hi. rewrite (Hhi i Hi). rewrite andb_false_r. reflexivity.
  - intros i Hi. destruct (Hno i Hi) as [-> _]. destruct (keep i); split; reflexivity.
Qed.

Lemma copied_reach : forall a keep tenure f, is_space a ->
  reachb (copied a keep tenure f) = reachb f.
Proof.
  intros a keep tenure f Ha. unfold copied.
  destruct (any f F_OLD); [reflexivity|]. destruct (any f F_SPACES); [|reflexivity].
  destruct keep; [|reflexivity]. cbn [negb]. unfold reachb.
  destruct Ha as [-> | ->]; destruct tenure; repeat rewrite ?Z.lor_spec, ?Z.ldiff_spec;
    repeat match goal with
    | |- context [Z.testbit ?c ?k] =>
        let v := eval vm_compute in (Z.testbit c k) in
        match v with true => idtac | false => idtac end;
        change (Z.testbit c k) with v
    end; cbn [negb andb orb]; rewrite ?andb_true_r, ?orb_false_r, ?andb_true_r; reflexivity.
Qed.

Lemma core_ext : forall m s w w', core m s w ->
  (forall i, objs w' i = objs w i) -> (forall i, young w' i = young w i) -> core m s w'.
Proof.
  intros m s w w' [Ha Hl Hs Hx Hal Hsl Hlo Hhi Hno] E1 E2. split; auto.
  - intros i Hi. specialize (Hsl i Hi). unfold slot in *. rewrite E1, E2. exact Hsl.
  - intros i Hi. unfold used. rewrite E1. apply Hlo, Hi.
  - intros i Hi. rewrite E1, E2. auto.
Qed.

Lemma inv_ext : forall s w w', inv s w ->
  (forall i, objs w' i = objs w i) -> (forall i, young w' i = young w i) -> inv s w'.
Proof.
  intros s w w' (m & H & Hst) E1 E2. exists m. split; [eapply core_ext; eassumption|].
  intros Hm Hr i Hi. rewrite E1. auto.
Qed.

Lemma not_running_reach : forall s w i, core false s w -> incremental_gc_running s = false ->
  0 <= i < size s -> reachb (flags s i) = false.
Proof.
  intros s w i H Hr Hi. unfold incremental_gc_running in Hr.
  pose proof (c_slot _ _ _ H i Hi) as Hs. unfold slot in Hs. destruct (objs w i).
  - destruct Hs as (_ & -> & _). reflexivity.
  - unfold unswept in Hs. replace ((last_swept s <? i) && (i <=? next_to_sweep s)) with false in Hs by lia.
    destruct Hs as [_ ->]. reflexivity.
Qed.

Lemma global_ok : forall s w keep s', inv s w -> global_gc s keep = Ok s' ->
  inv s' (collected w keep) /\ size s' = size s.
Proof.
  intros s w keep s' H HE. unfold global_gc in HE.
  destruct (finish_ok s w H) as (F1 & F2 & F3). set (s1 := finish_incremental_gc s) in *.
  pose proof (core_copy s1 w keep (fun _ => true) F1 F3) as HC.
  set (w1 := scavenged w keep (fun _ => true)) in *.
  set (s2 := copy_oops s1 keep (fun _ => true)) in *.
  pose proof (core_mark _ w1 keep HC eq_refl eq_refl) as HM.
  apply reset_ok with (m := true) (w := collected w1 keep) in HE.
  - destruct HE as [HE1 HE2]. split.
    + eapply inv_ext; [exact HE1| |reflexivity].
      intros i. unfold collected, w1, scavenged. cbn [objs].
      destruct (keep i); [rewrite andb_false_r|]; reflexivity.
    + rewrite HE2. unfold mark_oops, s2, copy_oops. prj. exact F2.
  - change (size _) with (size s1). apply HM.
    + intros i. unfold w1, scavenged. cbn [young negb]. apply andb_false_r.
    + intros i Hi. prj. unfold s2, copy_oops. prj.
      rewrite copied_reach by apply flip_space, (c_space _ _ _ F1).
      eapply not_running_reach; eassumption.
Qed.

(** ** Histories *)
Lemma empty_inv : forall n, 0 <= n -> inv (empty_table n) no_objects.
Proof.
  intros n Hn. apply inv_false. unfold empty_table, no_objects. split; prj; cbn [objs young]; auto; try lia.
  - left. reflexivity.
  - intros i Hi. unfold slot, unswept. prj. cbn [objs young]. split; [reflexivity|].
    destruct ((-1 <? i) && (i <=? -1)); reflexivity.
Qed.

Lemma new_flags : forall a extra, is_space a -> plain_flags extra ->
  reachb (Z.lor extra a) = false /\ oldb (Z.lor extra a) = false
  /\ activeb a (Z.lor extra a) = true /\ otherb a (Z.lor extra a) = false.
Proof.
  intros a extra Ha [Hp _].
  assert (HB : any extra (Z.lor (Z.lor F_REACHABLE F_SPACES) F_OLD) = false).
  { unfold any. rewrite Hp. reflexivity. }
  rewrite !any_lor, any_reach, any_spaces, any_old in HB.
  apply orb_false_iff in HB. destruct HB as [HB H4]. apply orb_false_iff in HB. destruct HB as [H1 HB].
  apply orb_false_iff in HB. destruct HB as [H2 H3].
  unfold reachb, oldb, evenb, oddb, activeb, otherb in *. unfold evenb, oddb.
  destruct Ha as [-> | ->]; rewrite !Z.lor_spec, ?H1, ?H2, ?H3, ?H4; repeat split.
Qed.

Lemma serve_ok : forall s w r s' a, inv s w -> proper r -> serve s r = Ok (s', a) ->
  (a = ASwept false -> incremental_gc_running s' = true) ->
  exists w', effect w r a w' /\ inv s' w' /\ size s' = size s.
Proof.
  intros s w r s' a H Hp HE Hrun. destruct r; cbn [serve] in HE.
  - destruct (alloc_oop s c (Z.lor extra (active_flag s))) as [[s1 j]| | | |] eqn:EA; try discriminate.
    cbn [obind] in HE. injection HE as <- <-.
    destruct H as (m & H & Hst).
    destruct (new_flags (active_flag s) extra (c_space _ _ _ H) Hp) as (N1 & N2 & N3 & N4).
    apply alloc_ok with (w := w) (y := true) in EA; auto; [|exists m; auto].
    destruct EA as (s2 & i & E & Hlf & Hsz & Hi). injection E as <- <-.
    eexists. split; [apply eff_new; exact Hlf|]. auto.
  - destruct (alloc_oop s c F_OLD) as [[s1 j]| | | |] eqn:EA; try discriminate.
    cbn [obind] in HE. injection HE as <- <-.
    destruct H as (m & H & Hst).
    apply alloc_ok with (w := w) (y := false) in EA;
      [ |exists m; auto|reflexivity|reflexivity
        |destruct (c_space _ _ _ H) as [-> | ->]; reflexivity
        |destruct (c_space _ _ _ H) as [-> | ->]; reflexivity].
    destruct EA as (s2 & i & E & Hlf & Hsz & Hi). injection E as <- <-.
    eexists. split; [apply eff_large; exact Hlf|]. auto.
  - pose proof (step_ok s w H) as HS. destruct (incremental_gc_step s) as [s1 b].
    injection HE as <- <-. destruct HS as (S1 & S2 & _).
    { intros ->. apply Hrun. reflexivity. }
    exists w. split; [constructor|]. auto.
  - injection HE as <- <-. destruct (finish_ok s w H) as (F1 & F2 & _).
    exists w. split; [constructor|]. auto using inv_false.
  - destruct (scavenge s keep tenure) as [s1| | | |] eqn:ES; try discriminate.
    cbn [obind] in HE. injection HE as <- <-.
    destruct (scavenge_ok _ _ _ _ _ H ES) as [S1 S2].
    eexists. split; [constructor|]. auto.
  - destruct (global_gc s keep) as [s1| | | |] eqn:ES; try discriminate.
    cbn [obind] in HE. injection HE as <- <-.
    destruct (global_ok _ _ _ _ H ES) as [S1 S2].
    eexists. split; [constructor|]. auto.
  - destruct (in_table s i) eqn:Ei; [|discriminate]. unfold in_table in Ei.
    injection HE as <- <-. exists w. split; [|auto]. constructor.
    destruct H as (m & H & _). rewrite (is_valid_ok m s w i H) by lia. unfold used.
    destruct (objs w i); split; congruence.
  - destruct (in_table s i) eqn:Ei; [|discriminate]. unfold in_table in Ei.
    injection HE as <- <-. exists w. split; [|auto].
    destruct H as (m & H & _). pose proof (c_slot _ _ _ H i ltac:(lia)) as Hs. unfold slot in Hs.
    destruct (objs w i) as [c|] eqn:Eo; [|constructor; assumption].
    destruct Hs as [Hs _]. constructor. congruence.
Qed.

Lemma run_ok : forall rs s w s' l, inv s w -> Forall proper rs -> run s rs = Ok (s', l) ->
  no_step_just_ends s rs -> exists w', effects w rs l w' /\ inv s' w' /\ size s' = size s.
Proof.
  induction rs as [|r rs IH]; intros s w s' l H Hp HE Hn; cbn [run] in HE.
  - injection HE as <- <-. exists w. split; [constructor|]. auto.
  - cbn [no_step_just_ends] in Hn.
    destruct (serve s r) as [[s1 a]| | | |] eqn:ES; try discriminate. cbn [obind] in HE.
    destruct (run s1 rs) as [[s2 l2]| | | |] eqn:ER; try discriminate. cbn [obind] in HE.
    injection HE as <- <-. destruct Hn as [Hn1 Hn2]. inversion Hp as [|? ? Hp1 Hp2]; subst.
    destruct (serve_ok _ _ _ _ _ H Hp1 ES Hn1) as (w1 & W1 & W2 & W3).
    destruct (IH s1 w1 s2 l2 W2 Hp2 ER Hn2) as (w2 & W4 & W5 & W6).
    exists w2. split; [econstructor; eassumption|]. split; [assumption|congruence].
Qed.

Lemma history_ok : forall n rs s l, 0 <= n -> Forall proper rs ->
  run (empty_table n) rs = Ok (s, l) -> no_step_just_ends (empty_table n) rs ->
  exists w, effects no_objects rs l w.
Proof.
  intros n rs s l Hn Hp HE Hs.
  destruct (run_ok _ _ _ _ _ (empty_inv n Hn) Hp HE Hs) as (w & W & _). eauto.
Qed.

Lemma sweep_exact : forall n rs s l, 0 <= n -> Forall proper rs ->
  run (empty_table n) rs = Ok (s, l) -> no_step_just_ends (empty_table n) rs ->
  exists w, effects no_objects rs l w /\
    forall s' a, (exists r, (r = SweepAll \/ r = SweepStep /\ a = ASwept true)
                  /\ serve s r = Ok (s', a)) ->
      forall i, 0 <= i < n -> (flags s' i = 0 <-> objs w i = None).
Proof.
  intros n rs s l Hn Hp HE Hs.
  destruct (run_ok _ _ _ _ _ (empty_inv n Hn) Hp HE Hs) as (w & W & Hi & Hsz).
  exists w. split; [exact W|]. cbn [size empty_table] in Hsz.
  intros s' a (r & [-> | [-> ->]] & ES) i Hir; cbn [serve] in ES.
  - injection ES as <- <-. destruct (finish_ok s w Hi) as (F1 & F2 & F3).
    eapply swept_exactly; eauto. lia.
  - pose proof (step_ok s w Hi) as HS. destruct (incremental_gc_step s) as [s1 b].
    injection ES as -> ->. destruct HS as ((m & H & _) & S2 & S3); [discriminate|].
    eapply swept_exactly; [exact H|auto|lia].
Qed.

(** ** Nothing goes wrong while there is room *)
Definition room (n : Z) (w : world) : Prop := exists i, 0 <= i < n /\ objs w i = None.

Lemma alloc_fast_total : forall n s i q, (Z.to_nat (q - i) < n)%nat -> i <= q ->
  is_valid_gc s q = false -> exists r, alloc_fast n s i = Ok r.
Proof.
  induction n as [|n IH]; intros s i q Hn Hi Hq; [lia|]. cbn [alloc_fast].
  destruct (is_valid_gc s i) eqn:E; [|eauto].
  destruct (Z.eq_dec i q) as [->|]; [congruence|]. apply (IH s (i + 1) q); auto; lia.
Qed.

Lemma finished_valid0 : forall s q, flags s q = 0 -> is_valid_gc (finished_incremental_gc s) q = false.
Proof.
  intros s q H. destruct (finished_rest s) as [E _]. unfold is_valid_gc. rewrite E, H. reflexivity.
Qed.

Lemma alloc_sweep_total : forall n s i q, (Z.to_nat (q - i) < n)%nat -> i <= q ->
  (q <= next_to_sweep s -> is_valid_gc s q = false) -> (next_to_sweep s < q -> flags s q = 0) ->
  exists r, alloc_sweep n s i = Ok r.
Proof.
  induction n as [|n IH]; intros s i q Hn Hi Hq1 Hq2; [lia|]. cbn [alloc_sweep].
  destruct (is_valid_gc s i) eqn:E; [|eauto].
  assert (Hne : i <> q).
  { intros ->. destruct (Z_le_gt_dec q (next_to_sweep s)).
    - rewrite Hq1 in E by assumption. discriminate.
    - unfold is_valid_gc in E. rewrite Hq2 in E by lia. discriminate. }
  assert (Ef : flags (unmark s i) q = flags s q).
  { unfold unmark. prj. destruct (Z.eqb_spec q i); congruence. }
  destruct (Z.leb_spec (next_to_sweep (unmark s i)) i) as [Hle|Hlt].
  - apply (alloc_fast_total n _ (i + 1) q); try lia. apply finished_valid0.
    rewrite Ef. apply Hq2. unfold unmark in Hle. prj. lia.
  - apply (IH (unmark s i) (i + 1) q); [lia|lia| |].
    + intros Hx. unfold is_valid_gc in *. rewrite Ef. apply Hq1. exact Hx.
    + intros Hx. rewrite Ef. apply Hq2. exact Hx.
Qed.

Lemma alloc_total : forall s w c f, inv s w -> room (size s) w -> exists r, alloc_oop s c f = Ok r.
Proof.
  intros s w c f (m & H & Hst) (q & Hq & Hno). unfold alloc_oop.
  assert (Hlt : last_swept s < q).
  { destruct (Z_lt_le_dec (last_swept s) q); [assumption|].
    exfalso. apply (c_low _ _ _ H q); [lia|assumption]. }
  pose proof (c_slot _ _ _ H q Hq) as Hs. unfold slot in Hs. rewrite Hno in Hs. destruct Hs as [_ Hs].
  assert (HX : exists r,
    (if last_swept s + 1 <=? next_to_sweep s
     then alloc_sweep (Z.to_nat (size s - (last_swept s + 1))) s (last_swept s + 1)
     else alloc_fast (Z.to_nat (size s - (last_swept s + 1))) s (last_swept s + 1)) = Ok r).
  { destruct (Z.leb_spec (last_swept s + 1) (next_to_sweep s)) as [Hle|Hgt].
    - apply alloc_sweep_total with (q := q); try lia.
      + intros Hx. unfold unswept in Hs.
        replace ((last_swept s <? q) && (q <=? next_to_sweep s)) with true in Hs by lia. exact Hs.
      + intros Hx. unfold unswept in Hs.
        replace ((last_swept s <? q) && (q <=? next_to_sweep s)) with false in Hs by lia. exact Hs.
    - apply alloc_fast_total with (q := q); try lia. unfold unswept in Hs.
      replace ((last_swept s <? q) && (q <=? next_to_sweep s)) with false in Hs by lia.
      eapply zero_dead; [apply (c_space _ _ _ H)|apply (c_live _ _ _ H)|exact Hs]. }
  destruct HX as [[s1 j] ->]. cbn [obind]. eauto.
Qed.

Lemma reset_up_total : forall n s i q, (Z.to_nat (q - i) < n)%nat -> i <= q ->
  is_valid_gc s q = false -> exists r, reset_up n s i = Ok r.
Proof.
  induction n as [|n IH]; intros s i q Hn Hi Hq; [lia|]. cbn [reset_up].
  destruct (is_valid_gc s i) eqn:E; [|eauto].
  destruct (Z.eq_dec i q) as [->|Hne]; [congruence|]. apply (IH _ (i + 1) q); try lia.
  unfold is_valid_gc, unmark in *. prj. destruct (Z.eqb_spec q i); congruence.
Qed.

Lemma reset_total : forall m s w,
  core m (set_next_to_sweep (set_last_swept s (-1)) (size s - 1)) w -> room (size s) w ->
  exists s', reset_incremental_gc s = Ok s'.
Proof.
  intros m s w H (q & Hq & Hno).
  pose proof (c_slot _ _ _ H q Hq) as Hs. unfold slot, unswept, is_valid_gc in Hs. prj.
  rewrite Hno in Hs. replace ((-1 <? q) && (q <=? size s - 1)) with true in Hs by lia.
  unfold reset_incremental_gc.
  destruct (reset_up_total (Z.to_nat (size s)) s 0 q) as [[s1 j] ->]; try lia; [exact (proj2 Hs)|].
  cbn [obind].
  destruct (reset_down _ _ _) as [s2 k]. eauto.
Qed.

Lemma serve_total : forall s w r, inv s w -> room (size s) w ->
  match r with IsAlive i | Contents i => 0 <= i < size s | _ => True end ->
  exists x, serve s r = Ok x.
Proof.
  intros s w r H Hroom Hr. destruct r; cbn [serve].
  - destruct (alloc_total s w c (Z.lor extra (active_flag s)) H Hroom) as [[s1 j] ->]. cbn. eauto.
  - destruct (alloc_total s w c F_OLD H Hroom) as [[s1 j] ->]. cbn. eauto.
  - destruct (incremental_gc_step s). eauto.
  - eauto.
  - destruct (finish_ok s w H) as (F1 & F2 & F3). unfold scavenge.
    destruct (reset_total false _ _ (core_copy _ w keep tenure F1 F3)) as [s' ->]; [|cbn; eauto].
    change (size (copy_oops (finish_incremental_gc s) keep tenure)) with (size (finish_incremental_gc s)).
    rewrite F2. destruct Hroom as (q & Hq & Hno). exists q. split; [exact Hq|].
    unfold scavenged. cbn [objs]. destruct (young w q && negb (keep q)); auto.
  - destruct (finish_ok s w H) as (F1 & F2 & F3). unfold global_gc.
    set (s1 := finish_incremental_gc s) in *.
    pose proof (core_copy s1 w keep (fun _ => true) F1 F3) as HC.
    set (w1 := scavenged w keep (fun _ => true)) in *.
    pose proof (core_mark _ w1 keep HC eq_refl eq_refl) as HM.
    match goal with |- exists x, (olet s := reset_incremental_gc ?X in _) = _ => set (s2 := X) end.
    assert (HR : exists s', reset_incremental_gc s2 = Ok s').
    { apply (reset_total true s2 (collected w1 keep)).
      - apply HM.
        + intros i. unfold w1, scavenged. cbn [young negb]. apply andb_false_r.
        + intros i Hi. prj. unfold copy_oops. prj.
          rewrite copied_reach by apply flip_space, (c_space _ _ _ F1).
          eapply not_running_reach; eassumption.
      - change (size s2) with (size s1). rewrite F2.
        destruct Hroom as (q & Hq & Hno). exists q. split; [exact Hq|].
        unfold collected, w1, scavenged. cbn [objs].
        destruct (keep q); auto. destruct (young w q && negb true); auto. }
    destruct HR as [s' ->]. cbn. eauto.
  - unfold in_table. replace ((0 <=? i) && (i <? size s)) with true by lia. eauto.
  - unfold in_table. replace ((0 <=? i) && (i <? size s)) with true by lia. eauto.
Qed.


Lemma effects_alike : forall rs l w1 w2 v1 v2, effects w1 rs l v1 -> effects w2 rs l v2 ->
  (forall i, objs w1 i = objs w2 i) -> (forall i, young w1 i = young w2 i) ->
  (forall i, objs v1 i = objs v2 i) /\ (forall i, young v1 i = young v2 i).
Proof.
  induction rs as [|r rs IH]; intros l w1 w2 v1 v2 H1 H2 Ho Hy.
  - inversion H1; subst. inversion H2; subst. auto.
  - inversion H1 as [|? ? a x1 ? l' ? E1 R1]; subst. inversion H2 as [|? ? ? x2 ? ? ? E2 R2]; subst.
    apply (IH l' x1 x2 v1 v2); auto.
    + intros i. inversion E1; subst; inversion E2; subst; cbn [objs young]; rewrite ?Ho, ?Hy; auto.
    + intros i. inversion E1; subst; inversion E2; subst; cbn [objs young]; rewrite ?Ho, ?Hy; auto.
Qed.

Lemma history_total : forall n rs s l w r, 0 <= n -> Forall proper rs ->
  run (empty_table n) rs = Ok (s, l) -> no_step_just_ends (empty_table n) rs ->
  effects no_objects rs l w -> room n w ->
  match r with IsAlive i | Contents i => 0 <= i < n | _ => True end ->
  exists x, serve s r = Ok x.
Proof.
  intros n rs s l w r Hn Hp HE Hs He (q & Hq & Hno) Hr.
  destruct (run_ok _ _ _ _ _ (empty_inv n Hn) Hp HE Hs) as (w' & W & Hi & Hsz).
  cbn [size empty_table] in Hsz.
  destruct (effects_alike _ _ _ _ _ _ W He) as [Eo _]; auto.
  apply (serve_total s w' r Hi).
  - exists q. rewrite Hsz, Eo. auto.
  - rewrite Hsz. exact Hr.
Qed.

(** ** A live object whose OOP is given away *)
Fixpoint some_objects (n : nat) (c : Z) : list request :=
  match n with O => [] | S n => NewLargeObject c :: some_objects n (c + 1) end.

(** 103 objects, of which the first, the third and the last are kept *)
Definition lost_history : list request :=
  some_objects 103 0
  ++ [GlobalGC (fun i => (i =? 0) || (i =? 2) || (i =? 102)); SweepStep; NewObject 200 0].

Definition last_answers (k : nat) (r : outcome (table * list answer)) : option (list answer) :=
  match r with Ok (_, l) => Some (skipn (length l - k) l) | _ => None end.

Definition lost_tail : list request := [IsAlive 2; Contents 2; NewObject 201 0; Contents 2].

Lemma lost_answers : last_answers 4 (run (empty_table 120) (lost_history ++ lost_tail))
  = Some [ABool true; ACont 2; AOop 2; ACont 201].
Proof. vm_compute. reflexivity. Qed.

Lemma effects_length : forall rs l w w', effects w rs l w' -> length l = length rs.
Proof. induction 1; cbn [length]; congruence. Qed.

Lemma effects_app : forall rs1 rs2 l w w', effects w (rs1 ++ rs2) l w' ->
  exists w1, effects w1 rs2 (skipn (length l - length rs2) l) w'.
Proof.
  induction rs1 as [|r rs1 IH]; intros rs2 l w w' H; cbn [app] in H.
  - exists w. rewrite (effects_length _ _ _ _ H), Nat.sub_diag. exact H.
  - inversion H as [|? ? a x1 ? l' ? E1 R1]; subst. destruct (IH _ _ _ _ R1) as [w1 W].
    exists w1. pose proof (effects_length _ _ _ _ R1) as L. rewrite app_length in L. cbn [length].
    replace (S (length l') - length rs2)%nat with (S (length l' - length rs2)) by lia. exact W.
Qed.

Lemma all_proper : Forall proper (lost_history ++ lost_tail).
Proof.
  unfold lost_history. rewrite <- app_assoc. apply Forall_app. split.
  - generalize 0. generalize 103%nat; intros n0; induction n0 as [|n IH]; intros c; cbn [some_objects]; constructor; cbn; auto.
  - unfold lost_tail. cbn [app]. repeat constructor; cbn; lia.
Qed.

Lemma run_length : forall rs t s l, run t rs = Ok (s, l) -> length l = length rs.
Proof.
  induction rs as [|r rs IH]; intros t s l' E; cbn [run] in E.
  - injection E as <- <-. reflexivity.
  - destruct (serve t r) as [[s1 a]| | | |]; try discriminate. cbn [obind] in E.
    destruct (run s1 rs) as [[s2 l2]| | | |] eqn:ER; try discriminate. cbn [obind] in E.
    injection E as <- <-. cbn [length]. f_equal. eapply IH. exact ER.
Qed.

Lemma last_answers_run : forall k r a, last_answers k r = Some a ->
  exists s l, r = Ok (s, l) /\ skipn (length l - k) l = a.
Proof.
  intros k r a H. unfold last_answers in H. destruct r as [[s l]| | | |]; try discriminate.
  exists s, l. split; congruence.
Qed.

Lemma lost_object : exists n rs s l, Forall proper rs /\ run (empty_table n) rs = Ok (s, l)
  /\ (exists k, nth_error rs k = Some (IsAlive 2) /\ nth_error l k = Some (ABool true)
        /\ nth_error l (k + 1) = Some (ACont 2)
        /\ nth_error l (k + 2) = Some (AOop 2) /\ nth_error l (k + 3) = Some (ACont 201))
  /\ ~ exists w, effects no_objects rs l w.
Proof.
  exists 120, (lost_history ++ lost_tail).
  destruct (last_answers_run _ _ _ lost_answers) as (s & l & E & EL).
  pose proof (run_length _ _ _ _ E) as Hlen.
  exists s, l. split; [exact all_proper|]. split; [exact E|]. clear E. split.
  - exists (length l - 4)%nat.
    assert (HN : forall j, nth_error l (length l - 4 + j)
                           = nth_error [ABool true; ACont 2; AOop 2; ACont 201] j).
    { intros j. rewrite <- EL. clear. generalize (length l - 4)%nat. induction l as [|x l IH]; intros [|n]; cbn;
        auto. destruct j; reflexivity. }
    split; [rewrite Hlen; reflexivity|].
    split; [rewrite <- (Nat.add_0_r (length l - 4)), HN; reflexivity|].
    split; [rewrite HN; reflexivity|]. split; rewrite HN; reflexivity.
  - intros [w W]. apply effects_app in W. destruct W as [w1 W].
    change (length lost_tail) with 4%nat in W. rewrite EL in W. unfold lost_tail in W.
    inversion W as [|? ? ? x1 ? ? ? E1 R1]; subst. inversion E1; subst.
    inversion R1 as [|? ? ? x2 ? ? ? E2 R2]; subst.
    assert (x2 = x1) by (inversion E2; reflexivity). subst x2.
    inversion R2 as [|? ? ? x3 ? ? ? E3 R3]; subst.
    inversion E3 as [? ? ? ? Hlf| | | | | | | | ]; subst. destruct Hlf as (_ & Hno & _).
    match goal with H : true = true <-> used _ 2 |- _ => apply (proj1 H eq_refl); exact Hno end.
Qed.
