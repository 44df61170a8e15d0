(** Lemmas about become:. *)
From Verif Require Import Base OopTab OopTabRun OopTabSpec OopTabProofs Become BecomeSpec.
Local Open Scope Z_scope.

(** ** Flags that the collector does not touch *)
Definition same (f f' : Z) : Prop :=
  Z.testbit f' 4 = Z.testbit f 4 /\ Z.testbit f' 5 = Z.testbit f 5 /\ Z.testbit f' 9 = Z.testbit f 9.

Definition kp (f f' : Z) : Prop := f' = 0 \/ (same f f' /\ (f = 0 -> f' = 0)).

Lemma kp_refl : forall f, kp f f.
Proof. intros f. right. unfold same. auto. Qed.

Lemma kp_trans : forall a b c, kp a b -> kp b c -> kp a c.
Proof.
  intros a b c [H|[H1 H2]] [K|[K1 K2]]; unfold kp, same in *; auto; try tauto.
  right. intuition congruence.
Qed.

Ltac bits :=
  repeat rewrite ?Z.lor_spec, ?Z.ldiff_spec, ?Z.lxor_spec;
  repeat match goal with
  | |- context [Z.testbit ?c ?k] =>
      let v := eval vm_compute in (Z.testbit c k) in
      match v with true => idtac | false => idtac end;
      change (Z.testbit c k) with v
  end; cbn [negb andb orb];
  rewrite ?andb_true_r, ?andb_false_r, ?orb_false_r, ?orb_true_r, ?xorb_false_r, ?andb_true_r, ?orb_false_r.

Lemma kp_unmark : forall f, kp f (Z.ldiff f F_REACHABLE).
Proof. intros f. right. split; [unfold same; repeat split; bits; reflexivity|]. intros ->. reflexivity. Qed.

Definition keeps (s s' : table) : Prop := forall i, kp (flags s i) (flags s' i).

Lemma keeps_trans : forall a b c, keeps a b -> keeps b c -> keeps a c.
Proof. intros a b c H K i. eapply kp_trans; eauto. Qed.

Lemma keeps_refl : forall s, keeps s s.
Proof. intros s i. apply kp_refl. Qed.

Lemma keeps_unmark : forall s i, keeps s (unmark s i).
Proof.
  intros s i k. unfold unmark. prj. destruct (Z.eqb_spec k i) as [->|]; [apply kp_unmark|apply kp_refl].
Qed.

Lemma keeps_sweep : forall s i, keeps s (sweep_oop s i).
Proof. intros s i k. rewrite sweep_flags. destruct (k =? i); [left; reflexivity|apply kp_refl]. Qed.

Lemma keeps_free : forall s i, keeps s (free_oop s i).
Proof. intros s i k. rewrite free_flags. destruct (k =? i); [left; reflexivity|apply kp_refl]. Qed.

Lemma keeps_finished : forall s, keeps s (finished_incremental_gc s).
Proof. intros s k. destruct (finished_rest s) as [E _]. rewrite E. apply kp_refl. Qed.

Lemma keeps_finish_loop : forall n s i, keeps s (fst (finish_loop n s i)).
Proof.
  induction n as [|n IH]; intros s i; cbn [finish_loop]; [apply keeps_refl|].
  destruct (is_valid_gc s i).
  - eapply keeps_trans; [apply keeps_unmark|apply IH].
  - eapply keeps_trans; [apply keeps_free|apply IH].
Qed.

Lemma keeps_finish : forall s, keeps s (finish_incremental_gc s).
Proof.
  intros s. unfold finish_incremental_gc.
  pose proof (keeps_finish_loop (Z.to_nat (next_to_sweep s - last_swept s)) s (next_to_sweep s)) as H.
  destruct (finish_loop _ s _) as [s' j]. eapply keeps_trans; [exact H|].
  apply (keeps_finished (set_next_to_sweep s' j)).
Qed.

Lemma keeps_step_loop : forall n k s i,
  keeps s (match step_loop n k s i with inl s' => s' | inr (s', _) => s' end).
Proof.
  induction n as [|n IH]; intros k s i; cbn [step_loop]; [apply keeps_refl|].
  destruct (is_valid_gc s i).
  - eapply keeps_trans; [apply keeps_unmark|apply IH].
  - destruct (k + 1 =? INCREMENTAL_SWEEP_STEP).
    + intros x. prj. apply keeps_free.
    + eapply keeps_trans; [apply keeps_free|apply IH].
Qed.

Lemma keeps_step : forall s, keeps s (fst (incremental_gc_step s)).
Proof.
  intros s. unfold incremental_gc_step. destruct (incremental_gc_running s); cbn [negb fst]; [|apply keeps_refl].
  pose proof (keeps_step_loop (Z.to_nat (next_to_sweep s - last_swept s)) 0 s (next_to_sweep s)) as H.
  destruct (step_loop _ 0 s _) as [s'|[s' j]]; cbn [fst]; [exact H|].
  eapply keeps_trans; [exact H|]. apply (keeps_finished (set_next_to_sweep s' j)).
Qed.

Lemma keeps_reset_up : forall n s i s' j, reset_up n s i = Ok (s', j) -> keeps s s'.
Proof.
  induction n as [|n IH]; intros s i s' j H; cbn [reset_up] in H; [discriminate|].
  destruct (is_valid_gc s i).
  - eapply keeps_trans; [apply keeps_unmark|eapply IH; exact H].
  - injection H as <- <-. apply keeps_refl.
Qed.

Lemma keeps_reset_down : forall n s i, keeps s (fst (reset_down n s i)).
Proof.
  induction n as [|n IH]; intros s i; cbn [reset_down]; [apply keeps_refl|].
  destruct (is_valid s i); [apply keeps_refl|].
  eapply keeps_trans; [apply keeps_sweep|apply IH].
Qed.

Lemma keeps_reset : forall s s', reset_incremental_gc s = Ok s' -> keeps s s'.
Proof.
  intros s s' H. unfold reset_incremental_gc in H.
  destruct (reset_up _ s 0) as [[s1 j]| | | |] eqn:E; try discriminate. cbn [obind] in H.
  apply keeps_reset_up in E.
  match type of H with context [reset_down ?n ?x ?i] => pose proof (keeps_reset_down n x i) as K;
    destruct (reset_down n x i) as [s2 q] end.
  injection H as <-. eapply keeps_trans; [exact E|]. exact K.
Qed.

Lemma keeps_copy : forall s keep tenure, is_space (active_flag s) -> keeps s (copy_oops s keep tenure).
Proof.
  intros s keep tenure Ha i. unfold copy_oops. prj. right.
  split; [|intros ->; reflexivity]. unfold copied.
  destruct (any (flags s i) F_OLD); [unfold same; auto|].
  destruct (any (flags s i) F_SPACES); [|unfold same; auto].
  destruct (keep i); [|unfold same; auto]. cbn [negb]. unfold same.
  destruct Ha as [-> | ->]; destruct (tenure i); repeat split; bits; reflexivity.
Qed.

Lemma keeps_mark : forall s keep, keeps s (mark_oops s keep).
Proof.
  intros s keep i. unfold mark_oops. prj. right. split.
  - unfold same. destruct (keep i && any (flags s i) F_OLD); repeat split; bits; reflexivity.
  - intros ->. rewrite andb_false_r. reflexivity.
Qed.

Lemma keeps_alloc_fast : forall n s i s' j, alloc_fast n s i = Ok (s', j) -> keeps s s'.
Proof.
  induction n as [|n IH]; intros s i s' j H; cbn [alloc_fast] in H; [discriminate|].
  destruct (is_valid_gc s i); [eapply IH; exact H|]. injection H as <- <-. apply keeps_refl.
Qed.

Lemma keeps_alloc_sweep : forall n s i s' j, alloc_sweep n s i = Ok (s', j) -> keeps s s'.
Proof.
  induction n as [|n IH]; intros s i s' j H; cbn [alloc_sweep] in H; [discriminate|].
  destruct (is_valid_gc s i).
  - destruct (next_to_sweep (unmark s i) <=? i).
    + apply keeps_alloc_fast in H. eapply keeps_trans; [apply keeps_unmark|].
      eapply keeps_trans; [apply keeps_finished|exact H].
    + eapply keeps_trans; [apply keeps_unmark|eapply IH; exact H].
  - injection H as <- <-. destruct (next_to_sweep (sweep_oop s i) <=? i).
    + eapply keeps_trans; [apply keeps_sweep|apply keeps_finished].
    + apply keeps_sweep.
Qed.

Lemma keeps_alloc : forall s c f s' j, alloc_oop s c f = Ok (s', j) ->
  flags s' j = f /\ forall i, i <> j -> kp (flags s i) (flags s' i).
Proof.
  intros s c f s' j H. unfold alloc_oop in H.
  set (X := if last_swept s + 1 <=? next_to_sweep s then _ else _) in H.
  assert (HX : forall s1 q, X = Ok (s1, q) -> keeps s s1).
  { intros s1 q E. unfold X in E. destruct (last_swept s + 1 <=? next_to_sweep s);
      [eapply keeps_alloc_sweep|eapply keeps_alloc_fast]; exact E. }
  destruct X as [[s1 q]| | | |]; try discriminate. cbn [obind] in H. specialize (HX s1 q eq_refl).
  injection H as <- <-. prj. split; [rewrite Z.eqb_refl; reflexivity|].
  intros i Hi. destruct (Z.eqb_spec i q); [contradiction|].
  destruct (last_allocated s1 <? q); prj; apply HX.
Qed.

Lemma serve_keeps : forall s r s' a w, inv s w -> serve s r = Ok (s', a) ->
  (forall i, a <> AOop i -> kp (flags s i) (flags s' i))
  /\ (forall i, a = AOop i ->
        flags s' i = match r with NewObject _ extra => Z.lor extra (active_flag s) | _ => F_OLD end).
Proof.
  intros s r s' a w Hinv H.
  assert (Hf : keeps s (finish_incremental_gc s) /\ is_space (active_flag (finish_incremental_gc s))).
  { split; [apply keeps_finish|]. destruct (finish_ok s w Hinv) as [F1 _]. apply (c_space _ _ _ F1). }
  destruct Hf as [Hf1 Hf2]. destruct r; cbn [serve] in H.
  - destruct (alloc_oop s c (Z.lor extra (active_flag s))) as [[s1 j]| | | |] eqn:E; try discriminate.
    cbn [obind] in H. injection H as <- <-. destruct (keeps_alloc _ _ _ _ _ E) as [K1 K2].
    split; [intros i Hi; apply K2; congruence|]. intros i Hi. injection Hi as <-. exact K1.
  - destruct (alloc_oop s c F_OLD) as [[s1 j]| | | |] eqn:E; try discriminate.
    cbn [obind] in H. injection H as <- <-. destruct (keeps_alloc _ _ _ _ _ E) as [K1 K2].
    split; [intros i Hi; apply K2; congruence|]. intros i Hi. injection Hi as <-. exact K1.
  - pose proof (keeps_step s) as K. destruct (incremental_gc_step s) as [s1 b]. injection H as <- <-.
    split; [intros i _; apply K|discriminate].
  - injection H as <- <-. split; [intros i _; apply keeps_finish|discriminate].
  - destruct (scavenge s keep tenure) as [s1| | | |] eqn:E; try discriminate. cbn [obind] in H.
    injection H as <- <-. split; [|discriminate]. intros i _. unfold scavenge in E.
    apply keeps_reset in E.
    assert (K : keeps s s1); [|apply K].
    eapply keeps_trans; [exact Hf1|]. eapply keeps_trans; [|exact E]. apply keeps_copy, Hf2.
  - destruct (global_gc s keep) as [s1| | | |] eqn:E; try discriminate. cbn [obind] in H.
    injection H as <- <-. split; [|discriminate]. intros i _. unfold global_gc in E.
    apply keeps_reset in E.
    assert (K : keeps s s1); [|apply K].
    eapply keeps_trans; [exact Hf1|]. eapply keeps_trans; [apply keeps_copy, Hf2|].
    eapply keeps_trans; [apply keeps_mark|]. exact E.
  - destruct (in_table s i); [|discriminate]. injection H as <- <-.
    split; [intros k _; apply kp_refl|discriminate].
  - destruct (in_table s i); [|discriminate]. injection H as <- <-.
    split; [intros k _; apply kp_refl|discriminate].
Qed.

(** ** The invariant *)
Definition weakb f := Z.testbit f 4.
Definition readonlyb f := Z.testbit f 5.
Definition fixedb f := Z.testbit f 9.

Lemma any_weak f : any f F_WEAK = weakb f.
Proof. apply (any_pow f 4). lia. Qed.
Lemma any_readonly f : any f F_READONLY = readonlyb f.
Proof. apply (any_pow f 5). lia. Qed.
Lemma any_fixed f : any f F_FIXED = fixedb f.
Proof. apply (any_pow f 9). lia. Qed.

Definition attrs (s : table) (w : pworld) : Prop := forall i, used (objs (base w)) i ->
  weakb (flags s i) = weak w i /\ readonlyb (flags s i) = readonly w i
  /\ (fixedb (flags s i) = true -> young (base w) i = false).

Definition pinv (s : table) (w : pworld) : Prop := inv s (base w) /\ attrs s w.

Lemma used_range : forall m s w i, core m s w -> used (objs w) i -> 0 <= i < size s.
Proof.
  intros m s w i H Hu. destruct (Z_lt_le_dec i 0); [|destruct (Z_lt_le_dec i (size s)); [lia|]];
    (exfalso; apply Hu; apply (c_none _ _ _ H); lia).
Qed.

Lemma used_flags : forall m s w i, core m s w -> used (objs w) i -> flags s i <> 0.
Proof.
  intros m s w i H Hu E. pose proof (c_slot _ _ _ H i (used_range _ _ _ _ H Hu)) as Hs.
  unfold slot in Hs. unfold used in Hu. destruct (objs w i) as [c|]; [|congruence].
  destruct Hs as (_ & _ & Ho & Ha & _). rewrite E in *.
  unfold activeb, oldb, evenb, oddb in *. rewrite !Z.bits_0 in *.
  destruct (young w i); [|discriminate]. destruct (active_flag s =? F_EVEN); discriminate.
Qed.

Lemma known_used : forall s w i, inv s w -> known s i = true -> used (objs w) i.
Proof.
  intros s w i (m & H & _) Hk. unfold known, in_table in Hk. apply andb_true_iff in Hk.
  destruct Hk as [Hk1 Hk2]. rewrite (is_valid_ok m s w i H) in Hk2 by lia.
  unfold used. destruct (objs w i); congruence.
Qed.

(** Changing flags that are none of the collector's. *)
Lemma core_flags : forall m s w i f y, core m s w -> used (objs w) i ->
  reachb f = reachb (flags s i) -> oldb f = negb y -> activeb (active_flag s) f = y ->
  otherb (active_flag s) f = false ->
  core m (set_flags s i f) (World (objs w) (up (young w) i y)).
Proof.
  intros m s w i f y H Hu Hr Ho Ha Hot.
  pose proof (used_range _ _ _ _ H Hu) as Hi. pose proof (used_flags _ _ _ _ H Hu) as Hnz.
  destruct H as [Hsp Hl Hs Hx Hal Hsl Hlo Hhi Hno]. split; prj; cbn [objs young]; auto.
  - intros k Hk. specialize (Hsl k Hk). unfold slot, unswept, is_valid_gc, up in *. prj. cbn [objs young].
    destruct (Z.eqb_spec k i) as [->|].
    + unfold used in Hu. destruct (objs w i) as [c|]; [|congruence].
      destruct Hsl as (H1 & H2 & H3 & H4 & H5). rewrite Hr. auto.
    + exact Hsl.
  - intros k Hk. destruct (Z.eqb_spec k i) as [->|]; [|auto]. exfalso. apply Hnz. auto.
  - intros k Hk. unfold up. destruct (Z.eqb_spec k i) as [->|]; [lia|auto].
Qed.

Lemma inv_flags : forall s w i f y, inv s w -> used (objs w) i ->
  reachb f = reachb (flags s i) -> oldb f = negb y -> activeb (active_flag s) f = y ->
  otherb (active_flag s) f = false ->
  inv (set_flags s i f) (World (objs w) (up (young w) i y)).
Proof.
  intros s w i f y (m & H & Hst) Hu Hr Ho Ha Hot. exists m. split.
  - apply core_flags; assumption.
  - intros Hm Hrun k Hk. cbn [objs]. apply Hst; assumption.
Qed.

Lemma inv_slot : forall s w i, inv s w -> used (objs w) i ->
  oldb (flags s i) = negb (young w i) /\ activeb (active_flag s) (flags s i) = young w i
  /\ otherb (active_flag s) (flags s i) = false /\ is_space (active_flag s).
Proof.
  intros s w i (m & H & _) Hu. pose proof (c_slot _ _ _ H i (used_range _ _ _ _ H Hu)) as Hs.
  unfold slot in Hs. unfold used in Hu. destruct (objs w i) as [c|]; [|congruence].
  destruct Hs as (_ & _ & Ho & Ha & Hot). repeat split; auto. apply (c_space _ _ _ H).
Qed.

Lemma up_same : forall f i k, up f i (f i) k = f k.
Proof. intros f i k. unfold up. destruct (Z.eqb_spec k i); congruence. Qed.

Lemma up_eq : forall f i y k, f i = y -> up f i y k = f k.
Proof. intros f i y k <-. apply up_same. Qed.

(** A flag that is not one of the collector's is set or cleared. *)
Lemma inv_attr : forall s w i f, inv s w -> used (objs w) i ->
  reachb f = reachb (flags s i) -> oldb f = oldb (flags s i) -> evenb f = evenb (flags s i) ->
  oddb f = oddb (flags s i) -> inv (set_flags s i f) w.
Proof.
  intros s w i f H Hu Hr Ho He Hod. destruct (inv_slot s w i H Hu) as (S1 & S2 & S3 & S4).
  eapply inv_ext; [apply (inv_flags s w i f (young w i) H Hu)|reflexivity|]; auto; try congruence.
  - unfold activeb in *. destruct (active_flag s =? F_EVEN); congruence.
  - unfold otherb in *. destruct (active_flag s =? F_EVEN); congruence.
  - intros k. cbn [young]. symmetry. apply up_same.
Qed.

Lemma moved_bits : forall f g, Z.testbit g 23 = false -> Z.testbit g 17 = false -> Z.testbit g 18 = false ->
  Z.testbit g 8 = true ->
  let f' := Z.lor (Z.ldiff f (Z.lor F_SPACES F_POOLED)) g in
  reachb f' = reachb f /\ oldb f' = true /\ evenb f' = false /\ oddb f' = false
  /\ weakb f' = weakb f || Z.testbit g 4 /\ readonlyb f' = readonlyb f || Z.testbit g 5
  /\ fixedb f' = fixedb f || Z.testbit g 9.
Proof.
  intros f g G1 G2 G3 G4 f'. unfold f', reachb, oldb, evenb, oddb, weakb, readonlyb, fixedb.
  rewrite !Z.lor_spec, !Z.ldiff_spec, G1, G2, G3, G4. bits. repeat split; bits; reflexivity.
Qed.

Lemma tenure_ok : forall s w i, pinv s w -> used (objs (base w)) i ->
  pinv (tenure_oop s i)
    (PWorld (World (objs (base w)) (up (young (base w)) i false)) (weak w) (readonly w)).
Proof.
  intros s w i [H Hat] Hu. destruct (inv_slot s _ i H Hu) as (S1 & S2 & S3 & S4).
  unfold tenure_oop. rewrite any_old, S1.
  destruct (young (base w) i) eqn:Ey; cbn [negb].
  - destruct (moved_bits (flags s i) F_OLD) as (M1 & M2 & M3 & M4 & M5 & M6 & M7); try reflexivity.
    split.
    + apply inv_flags; auto; unfold activeb, otherb; destruct (active_flag s =? F_EVEN); auto.
    + intros k Hk. cbn [base objs young weak readonly] in *. prj. specialize (Hat k Hk). unfold up.
      destruct (Z.eqb_spec k i) as [->|]; [|exact Hat].
      rewrite M5, M6, M7. change (Z.testbit F_OLD 4) with false. change (Z.testbit F_OLD 5) with false.
      rewrite !orb_false_r. tauto.
  - split.
    + eapply inv_ext; [exact H|reflexivity|]. intros k. cbn [base young]. apply up_eq, Ey.
    + intros k Hk. specialize (Hat k Hk). cbn [base young weak readonly]. rewrite (up_eq _ _ _ _ Ey). exact Hat.
Qed.

Lemma fixed_ok : forall s w i, pinv s w -> used (objs (base w)) i ->
  pinv (make_oop_fixed s i)
    (PWorld (World (objs (base w)) (up (young (base w)) i false)) (weak w) (readonly w)).
Proof.
  intros s w i [H Hat] Hu. unfold make_oop_fixed. rewrite any_fixed.
  destruct (fixedb (flags s i)) eqn:Ef.
  - destruct (Hat i Hu) as (_ & _ & Hy). specialize (Hy Ef).
    split.
    + eapply inv_ext; [exact H|reflexivity|]. intros k. cbn [base young]. apply up_eq, Hy.
    + intros k Hk. specialize (Hat k Hk). cbn [base young weak readonly]. rewrite (up_eq _ _ _ _ Hy). exact Hat.
  - destruct (moved_bits (flags s i) (Z.lor F_OLD F_FIXED)) as (M1 & M2 & M3 & M4 & M5 & M6 & M7); try reflexivity.
    split.
    + apply inv_flags; auto; unfold activeb, otherb; destruct (active_flag s =? F_EVEN); auto.
    + intros k Hk. cbn [base objs young weak readonly] in *. prj. specialize (Hat k Hk). unfold up.
      destruct (Z.eqb_spec k i) as [->|]; [|exact Hat].
      rewrite M5, M6.
      change (Z.testbit (Z.lor F_OLD F_FIXED) 4) with false.
      change (Z.testbit (Z.lor F_OLD F_FIXED) 5) with false. rewrite !orb_false_r. tauto.
Qed.

(** ** The exchange *)
Lemma reach_flip : forall f, reachb (Z.lxor f F_REACHABLE) = negb (reachb f)
  /\ oldb (Z.lxor f F_REACHABLE) = oldb f /\ evenb (Z.lxor f F_REACHABLE) = evenb f
  /\ oddb (Z.lxor f F_REACHABLE) = oddb f /\ weakb (Z.lxor f F_REACHABLE) = weakb f
  /\ readonlyb (Z.lxor f F_REACHABLE) = readonlyb f /\ fixedb (Z.lxor f F_REACHABLE) = fixedb f.
Proof.
  intros f. unfold reachb, oldb, evenb, oddb, weakb, readonlyb, fixedb.
  rewrite !Z.lxor_spec. bits. destruct (Z.testbit f 23); auto 10.
Qed.

(** The flags of [i] and [j] after the exchange, as a function of the old ones. *)
Definition swap_marks (s : table) (i j : Z) : table :=
  let s := exchange s i j in
  if xorb (any (flags s i) F_REACHABLE) (any (flags s j) F_REACHABLE)
  then flip_mark (flip_mark s i) j else s.

Lemma swap_marks_flags : forall s i j k, let s' := swap_marks s i j in
  cont s' k = (if k =? i then cont s j else if k =? j then cont s i else cont s k)
  /\ size s' = size s /\ last_allocated s' = last_allocated s /\ last_swept s' = last_swept s
  /\ next_to_sweep s' = next_to_sweep s /\ live_flags s' = live_flags s
  /\ active_flag s' = active_flag s
  /\ (k <> i -> k <> j -> flags s' k = flags s k)
  /\ (forall x y, (x = i /\ y = j) \/ (x = j /\ y = i) ->
        reachb (flags s' x) = reachb (flags s x)
        /\ oldb (flags s' x) = oldb (flags s y) /\ evenb (flags s' x) = evenb (flags s y)
        /\ oddb (flags s' x) = oddb (flags s y) /\ weakb (flags s' x) = weakb (flags s y)
        /\ readonlyb (flags s' x) = readonlyb (flags s y) /\ fixedb (flags s' x) = fixedb (flags s y)).
Proof.
  intros s i j k s'. unfold s', swap_marks.
  assert (Ei : flags (exchange s i j) i = flags s j) by (unfold exchange; prj; rewrite Z.eqb_refl; reflexivity).
  assert (Ej : flags (exchange s i j) j = flags s i).
  { unfold exchange; prj. rewrite Z.eqb_refl. destruct (Z.eqb_spec j i); congruence. }
  rewrite Ei, Ej, !any_reach.
  destruct (xorb (reachb (flags s j)) (reachb (flags s i))) eqn:Ex.
  - assert (Hij : i <> j) by (intros ->; rewrite xorb_nilpotent in Ex; discriminate).
    unfold flip_mark, exchange. prj. conj.
    + intros K1 K2. apply Z.eqb_neq in K1, K2. rewrite K1, K2. reflexivity.
    + intros x y Hxy. pose proof (reach_flip (flags s y)) as RF.
      rewrite Z.eqb_refl. replace (j =? i) with false by lia. rewrite Z.eqb_refl.
      destruct Hxy as [[-> ->]|[-> ->]].
      * rewrite Z.eqb_refl. replace (i =? j) with false by lia.
        destruct RF as (R1 & R2 & R3 & R4 & R5 & R6 & R7). rewrite R1.
        conj. destruct (reachb (flags s j)), (reachb (flags s i)); auto; discriminate.
      * rewrite Z.eqb_refl.
        destruct RF as (R1 & R2 & R3 & R4 & R5 & R6 & R7). rewrite R1.
        conj. destruct (reachb (flags s j)), (reachb (flags s i)); auto; discriminate.
  - assert (Er : reachb (flags s j) = reachb (flags s i)).
    { destruct (reachb (flags s j)), (reachb (flags s i)); auto; discriminate. }
    unfold exchange in *. prj. conj.
    + intros K1 K2. apply Z.eqb_neq in K1, K2. rewrite K1, K2. reflexivity.
    + intros x y Hxy. destruct Hxy as [[-> ->]|[-> ->]]; [rewrite Ei|rewrite Ej]; auto 10.
Qed.

Definition swapw (w : world) (i j : Z) : world := World (swapped (objs w) i j) (young w).

Lemma swapped_used : forall w i j k, used (objs w) i -> used (objs w) j ->
  (used (swapped (objs w) i j) k <-> used (objs w) k).
Proof.
  intros w i j k Hi Hj. unfold used, swapped in *.
  destruct (Z.eqb_spec k i) as [->|]; [tauto|]. destruct (Z.eqb_spec k j) as [->|]; tauto.
Qed.

Lemma swap_core : forall m s w i j, core m s w -> used (objs w) i -> used (objs w) j ->
  young w i = young w j -> core m (swap_marks s i j) (swapw w i j).
Proof.
  intros m s w i j H Hi Hj Hy.
  pose proof (used_range _ _ _ _ H Hi) as Ri. pose proof (used_range _ _ _ _ H Hj) as Rj.
  pose proof (used_flags _ _ _ _ H Hi) as Zi. pose proof (used_flags _ _ _ _ H Hj) as Zj.
  destruct H as [Hsp Hl Hs Hx Hal Hsl Hlo Hhi Hno].
  destruct (swap_marks_flags s i j i) as (_ & E2 & E3 & E4 & E5 & E6 & E7 & _).
  split; rewrite ?E2, ?E3, ?E4, ?E5, ?E6, ?E7; cbn [swapw objs young]; auto.
  - intros k Hk. destruct (swap_marks_flags s i j k) as (F1 & _ & _ & _ & _ & _ & _ & F8 & F9).
    unfold slot, unswept, is_valid_gc. rewrite F1, E4, E5, E6, E7. cbn [swapw objs young]. unfold swapped.
    pose proof (Hsl i Ri) as Si. pose proof (Hsl j Rj) as Sj. unfold slot, unswept in Si, Sj.
    unfold used in Hi, Hj. destruct (objs w i) as [ci|] eqn:Oi; [|congruence].
    destruct (objs w j) as [cj|] eqn:Oj; [|congruence].
    destruct Si as (I1 & I2 & I3 & I4 & I5). destruct Sj as (J1 & J2 & J3 & J4 & J5).
    destruct (Z.eqb_spec k i) as [->|K1].
    + destruct (F9 i j) as (G1 & G2 & G3 & G4 & _); [auto|]. unfold activeb, otherb in *.
      rewrite G1, G2, G3, G4, Hy. auto.
    + destruct (Z.eqb_spec k j) as [->|K2].
      * destruct (F9 j i) as (G1 & G2 & G3 & G4 & _); [auto|]. unfold activeb, otherb in *.
        rewrite G1, G2, G3, G4, <- Hy. auto.
      * rewrite F8 by assumption. exact (Hsl k Hk).
  - intros k Hk. apply swapped_used; auto.
  - intros k Hk. destruct (swap_marks_flags s i j k) as (_ & _ & _ & _ & _ & _ & _ & F8 & _).
    destruct (Z.eq_dec k i) as [->|]; [exfalso; auto|]. destruct (Z.eq_dec k j) as [->|]; [exfalso; auto|].
    rewrite F8 by assumption. auto.
  - intros k Hk. unfold swapped. destruct (Z.eqb_spec k i); [lia|]. destruct (Z.eqb_spec k j); [lia|]. auto.
Qed.

Lemma swap_inv : forall s w i j, inv s w -> used (objs w) i -> used (objs w) j ->
  young w i = young w j -> inv (swap_marks s i j) (swapw w i j).
Proof.
  intros s w i j (m & H & Hst) Hi Hj Hy. exists m. split; [apply swap_core; assumption|].
  intros Hm Hr k Hk. destruct (swap_marks_flags s i j i) as (_ & E2 & E3 & E4 & E5 & _).
  unfold incremental_gc_running in *. rewrite E4, E5 in Hr. rewrite E4 in Hk. specialize (Hst Hm Hr).
  cbn [swapw objs]. pose proof (swapped_used w i j k Hi Hj) as Su.
  specialize (Hst k Hk). unfold used in Su. destruct (swapped (objs w) i j k); [|reflexivity].
  exfalso. apply (proj1 Su); [discriminate|exact Hst].
Qed.

Definition same_age (s : table) (i j : Z) : table :=
  if xorb (any (flags s i) F_OLD) (any (flags s j) F_OLD)
  then tenure_oop s (if any (flags s i) F_OLD then j else i) else s.

Lemma swap_objects_eq : forall s i j, is_weak s i = false -> is_weak s j = false ->
  swap_objects s i j =
  (let s := swap_marks (same_age s i j) i j in
   let s := if is_weak s j then make_oop_weak s j else s in
   if is_weak s i then make_oop_weak s i else s).
Proof.
  intros s i j Hi Hj. unfold swap_objects, swap_marks, same_age. rewrite Hj. cbv zeta.
  rewrite Hi. reflexivity.
Qed.

Lemma swap_ok : forall s w i j, pinv s w -> used (objs (base w)) i -> used (objs (base w)) j ->
  weak w i = false -> weak w j = false -> readonly w i = false -> readonly w j = false ->
  pinv (swap_objects s i j)
    (PWorld (World (swapped (objs (base w)) i j)
                   (let b := young (base w) i && young (base w) j in
                    up (up (young (base w)) i b) j b))
            (swapped (weak w) i j) (swapped (readonly w) i j)).
Proof.
  intros s w i j Hp Hi Hj Wi Wj Ri Rj. pose proof Hp as [H Hat].
  destruct (Hat i Hi) as (A1 & A2 & A3). destruct (Hat j Hj) as (B1 & B2 & B3).
  rewrite swap_objects_eq by (unfold is_weak; rewrite any_weak; congruence).
  destruct (inv_slot s _ i H Hi) as (Oi & _). destruct (inv_slot s _ j H Hj) as (Oj & _).
  set (s1 := same_age s i j).
  set (b := young (base w) i && young (base w) j).
  assert (H1 : pinv s1 (PWorld (World (objs (base w)) (up (up (young (base w)) i b) j b)) (weak w) (readonly w))).
  { unfold s1, same_age. rewrite !any_old, Oi, Oj.
    destruct (young (base w) i) eqn:Yi, (young (base w) j) eqn:Yj; cbn [negb xorb].
    - destruct Hp as [Hp1 Hp2].
      assert (E : forall k, up (up (young (base w)) i b) j b k = young (base w) k).
      { intros k. unfold up, b. destruct (Z.eqb_spec k j); [subst; auto|].
        destruct (Z.eqb_spec k i); [subst; auto|reflexivity]. }
      split; [eapply inv_ext; [exact Hp1|reflexivity|exact E]|].
      intros k Hk. cbn [base young weak readonly]. rewrite E. apply Hp2, Hk.
    - pose proof (tenure_ok s w i Hp Hi) as [T1 T2].
      assert (E : forall k, up (up (young (base w)) i b) j b k = up (young (base w)) i false k).
      { intros k. unfold up, b. destruct (Z.eqb_spec k j); [subst|reflexivity].
        destruct (Z.eqb_spec j i); auto. }
      split; [eapply inv_ext; [exact T1|reflexivity|exact E]|].
      intros k Hk. cbn [base young weak readonly]. rewrite E. apply T2, Hk.
    - pose proof (tenure_ok s w j Hp Hj) as [T1 T2].
      assert (E : forall k, up (up (young (base w)) i b) j b k = up (young (base w)) j false k).
      { intros k. unfold up, b. destruct (Z.eqb_spec k j); [reflexivity|].
        destruct (Z.eqb_spec k i); [subst; auto|reflexivity]. }
      split; [eapply inv_ext; [exact T1|reflexivity|exact E]|].
      intros k Hk. cbn [base young weak readonly]. rewrite E. apply T2, Hk.
    - destruct Hp as [Hp1 Hp2].
      assert (E : forall k, up (up (young (base w)) i b) j b k = young (base w) k).
      { intros k. unfold up, b. destruct (Z.eqb_spec k j); [subst; auto|].
        destruct (Z.eqb_spec k i); [subst; auto|reflexivity]. }
      split; [eapply inv_ext; [exact Hp1|reflexivity|exact E]|].
      intros k Hk. cbn [base young weak readonly]. rewrite E. apply Hp2, Hk. }
  clearbody s1. clear s Hp H Hat A1 A2 A3 B1 B2 B3 Oi Oj.
  destruct H1 as [H1 H2].
  destruct (H2 i Hi) as (A1 & A2 & A3). destruct (H2 j Hj) as (B1 & B2 & B3).
  cbn [base weak readonly young] in *.
  destruct (swap_marks_flags s1 i j i) as (_ & _ & _ & _ & _ & _ & _ & _ & F9).
  destruct (F9 i j) as (_ & _ & _ & _ & Gi & _); [auto|].
  destruct (F9 j i) as (_ & _ & _ & _ & Gj & _); [auto|].
  assert (Nj : is_weak (swap_marks s1 i j) j = false) by (unfold is_weak; rewrite any_weak; congruence).
  assert (Ni : is_weak (swap_marks s1 i j) i = false) by (unfold is_weak; rewrite any_weak; congruence).
  cbv zeta. rewrite Nj, Ni.
  assert (Yij : up (up (young (base w)) i b) j b i = up (up (young (base w)) i b) j b j).
  { unfold up. rewrite !Z.eqb_refl. destruct (i =? j); reflexivity. }
  split.
  - exact (swap_inv s1 _ i j H1 Hi Hj Yij).
  - intros k Hk. cbn [base weak readonly young objs] in *.
    pose proof (proj1 (swapped_used (base w) i j k Hi Hj) Hk) as Hk'.
    destruct (swap_marks_flags s1 i j k) as (_ & _ & _ & _ & _ & _ & _ & F8 & F9').
    specialize (H2 k Hk'). cbn [base weak readonly young objs] in H2. unfold swapped.
    destruct (Z.eqb_spec k i) as [->|K1].
    + destruct (F9' i j) as (_ & _ & _ & _ & G5 & G6 & G7); [auto|]. rewrite G5, G6, G7, Yij. auto.
    + destruct (Z.eqb_spec k j) as [->|K2].
      * destruct (F9' j i) as (_ & _ & _ & _ & G5 & G6 & G7); [auto|]. rewrite G5, G6, G7, <- Yij. auto.
      * rewrite F8 by assumption. exact H2.
Qed.

(** ** Histories *)
Lemma pserve_ok : forall s w r s' a, pinv s w -> pproper r -> pserve s r = Ok (s', a) ->
  (a = PA (ASwept false) -> incremental_gc_running s' = true) ->
  (match r with Become i j => is_weak s i = false /\ is_weak s j = false | _ => True end) ->
  exists w', peffect w r a w' /\ pinv s' w'.
Proof.
  intros s w r s' a Hp Hpr HE Hrun Hnw. pose proof Hp as [H Hat]. destruct r; cbn [pserve] in HE.
  - destruct (serve s r) as [[s1 b]| | | |] eqn:ES; try discriminate. cbn [obind] in HE.
    injection HE as <- <-.
    destruct (serve_ok s (base w) r s1 b H) as (w1 & W1 & W2 & W3); auto.
    { destruct r; cbn in *; auto. apply Hpr. }
    { intros ->. apply Hrun. reflexivity. }
    destruct (serve_keeps s r s1 b (base w) H ES) as [K1 K2].
    exists (PWorld w1 (fun i => weakb (flags s1 i)) (fun i => readonlyb (flags s1 i))).
    assert (Hnew : forall i, b = AOop i -> weakb (flags s1 i) = false /\ readonlyb (flags s1 i) = false
                             /\ fixedb (flags s1 i) = false).
    { intros i Hi. rewrite (K2 i Hi). destruct r; cbn in W1; try (inversion W1; congruence).
      - destruct Hpr as [_ Hpr]. destruct H as (m & Hc & _).
        assert (HB : any extra (Z.lor (Z.lor F_WEAK F_READONLY) F_FIXED) = false)
          by (unfold any; rewrite Hpr; reflexivity).
        rewrite !any_lor, any_weak, any_readonly, any_fixed in HB.
        apply orb_false_iff in HB. destruct HB as [HB H3]. apply orb_false_iff in HB.
        unfold weakb, readonlyb, fixedb in *. rewrite !Z.lor_spec, H3. destruct HB as [-> ->].
        destruct (c_space _ _ _ Hc) as [-> | ->]; repeat split.
      - repeat split. }
    assert (Hold : forall i, used (objs w1) i -> b <> AOop i ->
        used (objs (base w)) i /\ (young w1 i = true -> young (base w) i = true)
        /\ same (flags s i) (flags s1 i)).
    { intros i Hi Hb.
      assert (HU : used (objs (base w)) i /\ (young w1 i = true -> young (base w) i = true)).
      { inversion W1; subst; cbn [objs young] in *; auto.
        - destruct (Z.eqb_spec i i0); [congruence|]. unfold used in Hi. cbn in Hi.
          destruct (Z.eqb_spec i i0); [congruence|auto].
        - destruct (Z.eqb_spec i i0); [congruence|]. unfold used in Hi. cbn in Hi.
          destruct (Z.eqb_spec i i0); [congruence|auto].
        - unfold used in *. destruct (young (base w) i && negb (keep i)); [congruence|].
          split; [exact Hi|]. destruct (young (base w) i); auto.
        - unfold used in *. destruct (keep i); [|congruence]. split; [exact Hi|discriminate]. }
      split; [apply HU|]. split; [apply HU|].
      destruct (K1 i Hb) as [Hz|[Hz _]]; [|exact Hz].
      exfalso. destruct W2 as (m & Hc & _). exact (used_flags _ _ _ _ Hc Hi Hz). }
    split.
    + apply pe_table; [exact W1| |].
      * intros i Hi Hb. destruct (Hold i Hi Hb) as (U1 & U2 & (S1 & S2 & S3)).
        destruct (Hat i U1) as (A1 & A2 & _). unfold weakb, readonlyb in *. split; congruence.
      * intros i Hi. destruct (Hnew i Hi) as (N1 & N2 & _). auto.
    + split; [exact W2|]. intros i Hi. cbn [base weak readonly] in *. split; [reflexivity|]. split; [reflexivity|].
      intros Hfx.
      assert (Db : b = AOop i \/ b <> AOop i).
      { destruct b as [q| | | |]; try (right; discriminate). destruct (Z.eq_dec q i); [left|right]; congruence. }
      destruct Db as [Hb|Hb].
      * destruct (Hnew i Hb) as (_ & _ & N). congruence.
      * destruct (Hold i Hi Hb) as (U1 & U2 & (S1 & S2 & S3)). destruct (Hat i U1) as (_ & _ & A3).
        unfold fixedb in *. rewrite S3 in Hfx. specialize (A3 Hfx).
        destruct (young w1 i); [|reflexivity]. rewrite U2 in A3 by reflexivity. discriminate.
  - destruct (known s i) eqn:Ki; [|discriminate]. destruct (known s j) eqn:Kj; [|discriminate]. cbn [andb negb] in HE.
    apply (known_used s (base w)) in Ki; [|exact H]. apply (known_used s (base w)) in Kj; [|exact H].
    destruct (Hat i Ki) as (A1 & A2 & A3). destruct (Hat j Kj) as (B1 & B2 & B3).
    unfold is_weak in Hnw. rewrite !any_weak, A1, B1 in Hnw. destruct Hnw as [Wi Wj].
    unfold is_readonly in HE. rewrite !any_readonly, A2, B2 in HE.
    destruct (readonly w i) eqn:Ri; cbn [negb andb] in HE.
    { injection HE as <- <-. exists w. split; [apply pe_refused; auto|exact Hp]. }
    destruct (readonly w j) eqn:Rj; cbn [negb andb] in HE.
    { injection HE as <- <-. exists w. split; [apply pe_refused; auto|exact Hp]. }
    injection HE as <- <-. eexists. split; [apply pe_become; assumption|].
    apply swap_ok; assumption.
  - destruct (known s i) eqn:Ki; [|discriminate]. apply (known_used s (base w)) in Ki; [|exact H].
    injection HE as <- <-. eexists. split; [apply pe_weak|].
    destruct (Hat i Ki) as (A1 & A2 & A3). unfold is_weak. rewrite any_weak, A1.
    destruct (weak w i) eqn:Wi.
    + split; [exact H|]. intros k Hk. cbn [base weak readonly]. unfold up.
      destruct (Hat k Hk) as (C1 & C2 & C3). destruct (Z.eqb_spec k i); [subst; conj|auto].
    + split.
      * apply inv_attr; auto; unfold reachb, oldb, evenb, oddb; rewrite Z.lor_spec; bits; reflexivity.
      * intros k Hk. destruct (Hat k Hk) as (C1 & C2 & C3). cbn [base weak readonly]. unfold make_oop_weak, up. prj.
        destruct (Z.eqb_spec k i) as [->|]; [|auto].
        unfold weakb, readonlyb, fixedb in *. rewrite !Z.lor_spec. bits. auto.
  - destruct (known s i) eqn:Ki; [|discriminate]. apply (known_used s (base w)) in Ki; [|exact H].
    injection HE as <- <-. eexists. split; [apply pe_readonly|].
    split.
    + apply inv_attr; auto; unfold reachb, oldb, evenb, oddb; bits; reflexivity.
    + intros k Hk. destruct (Hat k Hk) as (C1 & C2 & C3). cbn [base weak readonly]. unfold up. prj.
      destruct (Z.eqb_spec k i) as [->|]; [|auto].
      unfold weakb, readonlyb, fixedb in *. bits. auto.
  - destruct (known s i) eqn:Ki; [|discriminate]. apply (known_used s (base w)) in Ki; [|exact H].
    injection HE as <- <-. eexists. split; [apply pe_tenure|]. apply tenure_ok; assumption.
  - destruct (known s i) eqn:Ki; [|discriminate]. apply (known_used s (base w)) in Ki; [|exact H].
    injection HE as <- <-. eexists. split; [apply pe_fixed|]. apply fixed_ok; assumption.
  - destruct (known s i) eqn:Ki; [|discriminate]. apply (known_used s (base w)) in Ki; [|exact H].
    injection HE as <- <-. exists w. unfold is_weak. rewrite any_weak.
    destruct (Hat i Ki) as (-> & _). split; [constructor|exact Hp].
  - destruct (known s i) eqn:Ki; [|discriminate]. apply (known_used s (base w)) in Ki; [|exact H].
    injection HE as <- <-. exists w. unfold is_readonly. rewrite any_readonly.
    destruct (Hat i Ki) as (_ & -> & _). split; [constructor|exact Hp].
Qed.

Lemma prun_ok : forall rs s w s' l, pinv s w -> Forall pproper rs -> prun s rs = Ok (s', l) ->
  no_step_just_stops s rs -> no_weak_become s rs -> exists w', peffects w rs l w' /\ pinv s' w'.
Proof.
  induction rs as [|r rs IH]; intros s w s' l H Hp HE Hn Hw; cbn [prun] in HE.
  - injection HE as <- <-. exists w. split; [constructor|exact H].
  - cbn [no_step_just_stops] in Hn. cbn [no_weak_become] in Hw.
    destruct (pserve s r) as [[s1 a]| | | |] eqn:ES; try discriminate. cbn [obind] in HE.
    destruct (prun s1 rs) as [[s2 l2]| | | |] eqn:ER; try discriminate. cbn [obind] in HE.
    injection HE as <- <-. destruct Hn as [Hn1 Hn2]. destruct Hw as [Hw1 Hw2].
    inversion Hp as [|? ? Hp1 Hp2]; subst.
    destruct (pserve_ok _ _ _ _ _ H Hp1 ES Hn1 Hw1) as (w1 & W1 & W2).
    destruct (IH s1 w1 s2 l2 W2 Hp2 ER Hn2 Hw2) as (w2 & W4 & W5).
    exists w2. split; [econstructor; eassumption|exact W5].
Qed.

Lemma pempty_inv : forall n, 0 <= n -> pinv (empty_table n) pno_objects.
Proof. intros n Hn. split; [apply empty_inv, Hn|]. intros i Hi. exfalso. apply Hi. reflexivity. Qed.

Lemma become_history : forall n rs s l, 0 <= n -> Forall pproper rs ->
  prun (empty_table n) rs = Ok (s, l) -> no_step_just_stops (empty_table n) rs ->
  no_weak_become (empty_table n) rs -> exists w, peffects pno_objects rs l w.
Proof.
  intros n rs s l Hn Hp HE H1 H2.
  destruct (prun_ok _ _ _ _ _ (pempty_inv n Hn) Hp HE H1 H2) as (w & W & _). eauto.
Qed.

(** ** Twice is nothing *)
Lemma swapped_twice : forall A (f : Z -> A) i j k, swapped (swapped f i j) i j k = f k.
Proof.
  intros A f i j k. unfold swapped. rewrite Z.eqb_refl.
  destruct (Z.eqb_spec k i) as [E|]; [subst k|].
  - destruct (Z.eqb_spec j i); [subst; reflexivity|]. rewrite ?Z.eqb_refl. reflexivity.
  - destruct (Z.eqb_spec k j) as [E|]; [subst k|reflexivity]. rewrite ?Z.eqb_refl. reflexivity.
Qed.

Lemma become_inv : forall s w i j s', pinv s w -> is_weak s i = false -> is_weak s j = false ->
  pserve s (Become i j) = Ok (s', PDone) ->
  exists y, pinv s' (PWorld (World (swapped (objs (base w)) i j) y) (swapped (weak w) i j) (swapped (readonly w) i j))
    /\ weak w i = false /\ weak w j = false /\ size s' = size s
    /\ used (objs (base w)) i /\ used (objs (base w)) j.
Proof.
  intros s w i j s' Hp Wi Wj HE. pose proof Hp as [H Hat]. cbn [pserve] in HE.
  destruct (known s i) eqn:Ki; [|discriminate]. destruct (known s j) eqn:Kj; [|discriminate]. cbn [andb negb] in HE.
  apply (known_used s (base w)) in Ki; [|exact H]. apply (known_used s (base w)) in Kj; [|exact H].
  destruct (Hat i Ki) as (A1 & A2 & A3). destruct (Hat j Kj) as (B1 & B2 & B3).
  assert (HS : size (swap_objects s i j) = size s).
  { rewrite swap_objects_eq by assumption. cbv zeta.
    destruct (swap_marks_flags (same_age s i j) i j i) as (_ & E2 & _).
    assert (E3 : size (same_age s i j) = size s).
    { unfold same_age. destruct (xorb _ _); [|reflexivity]. unfold tenure_oop. destruct (any _ _); reflexivity. }
    set (q := swap_marks (same_age s i j) i j) in *.
    assert (E4 : size (if is_weak q j then make_oop_weak q j else q) = size q) by (destruct (is_weak q j); reflexivity).
    set (q1 := if is_weak q j then make_oop_weak q j else q) in *. clearbody q1.
    destruct (is_weak q1 i); unfold make_oop_weak; prj; congruence. }
  unfold is_weak in Wi, Wj. rewrite any_weak, A1 in Wi. rewrite any_weak, B1 in Wj.
  unfold is_readonly in HE. rewrite !any_readonly, A2, B2 in HE.
  destruct (readonly w i) eqn:Ri; [discriminate|]. destruct (readonly w j) eqn:Rj; [discriminate|].
  cbn [negb andb] in HE. injection HE as <-. eexists. conj. apply swap_ok; assumption.
Qed.

Lemma inv_answers : forall s w k, pinv s w -> in_table s k = true ->
  (is_valid s k = match objs (base w) k with Some _ => true | None => false end)
  /\ (forall c, objs (base w) k = Some c ->
       cont s k = c /\ is_weak s k = weak w k /\ is_readonly s k = readonly w k).
Proof.
  intros s w k [H Hat] Hk. destruct H as (m & H & _). unfold in_table in Hk.
  assert (Hr : 0 <= k < size s) by lia. split.
  - rewrite (is_valid_ok m s (base w) k H) by lia. destruct (objs (base w) k); reflexivity.
  - intros c Hc. assert (Hu : used (objs (base w)) k) by (unfold used; congruence).
    destruct (Hat k Hu) as (A1 & A2 & _). unfold is_weak, is_readonly. rewrite any_weak, any_readonly.
    pose proof (c_slot _ _ _ H k Hr) as Hs. unfold slot in Hs. rewrite Hc in Hs. destruct Hs as (H1 & _). conj.
Qed.

Lemma become_twice : forall n rs s l i j s1 s2, 0 <= n -> Forall pproper rs ->
  prun (empty_table n) rs = Ok (s, l) -> no_step_just_stops (empty_table n) rs ->
  no_weak_become (empty_table n) rs -> is_weak s i = false -> is_weak s j = false ->
  pserve s (Become i j) = Ok (s1, PDone) -> pserve s1 (Become i j) = Ok (s2, PDone) ->
  forall k, in_table s k = true ->
    is_valid s2 k = is_valid s k
    /\ (is_valid s k = true -> cont s2 k = cont s k /\ is_weak s2 k = is_weak s k
        /\ is_readonly s2 k = is_readonly s k)
    /\ (is_valid s k = true -> k <> i -> k <> j -> cont s1 k = cont s k)
    /\ cont s1 i = cont s j /\ cont s1 j = cont s i.
Proof.
  intros n rs s l i j s1 s2 Hn Hp HE H1 H2 Wi Wj B1 B2 k Hk.
  destruct (prun_ok _ _ _ _ _ (pempty_inv n Hn) Hp HE H1 H2) as (w & _ & W). clear rs l HE H1 H2 Hp.
  destruct (become_inv s w i j s1 W Wi Wj B1) as (y1 & W1 & V1 & V2 & Z1 & Ui & Uj).
  assert (In1 : forall q, in_table s1 q = in_table s q) by (intros q; unfold in_table; rewrite Z1; reflexivity).
  assert (Ks : in_table s i = true /\ in_table s j = true).
  { cbn [pserve] in B1. unfold known in B1. destruct (in_table s i); [|discriminate].
    destruct (in_table s j); [auto|]. destruct (is_valid s i); discriminate. }
  destruct Ks as [Ki Kj].
  set (w1 := PWorld _ _ _) in W1.
  assert (Oi : objs (base w1) i = objs (base w) j) by (cbn; unfold swapped; rewrite Z.eqb_refl; reflexivity).
  assert (Oj : objs (base w1) j = objs (base w) i).
  { cbn; unfold swapped; rewrite Z.eqb_refl. destruct (Z.eqb_spec j i); congruence. }
  assert (Vi : is_weak s1 i = false /\ cont s1 i = cont s j).
  { unfold used in Uj. destruct (objs (base w) j) as [c|] eqn:Ej; [|congruence].
    destruct (proj2 (inv_answers s1 w1 i W1 ltac:(rewrite In1; exact Ki)) c Oi) as (C1 & C2 & _).
    destruct (proj2 (inv_answers s w j W Kj) c Ej) as (D1 & _).
    split; [|congruence]. rewrite C2. cbn. unfold swapped. rewrite Z.eqb_refl. exact V2. }
  assert (Vj : is_weak s1 j = false /\ cont s1 j = cont s i).
  { unfold used in Ui. destruct (objs (base w) i) as [c|] eqn:Ei; [|congruence].
    destruct (proj2 (inv_answers s1 w1 j W1 ltac:(rewrite In1; exact Kj)) c Oj) as (C1 & C2 & _).
    destruct (proj2 (inv_answers s w i W Ki) c Ei) as (D1 & _).
    split; [|congruence]. rewrite C2. cbn. unfold swapped. rewrite Z.eqb_refl.
    destruct (Z.eqb_spec j i); congruence. }
  destruct Vi as [Vi Ci]. destruct Vj as [Vj Cj].
  destruct (become_inv s1 w1 i j s2 W1 Vi Vj B2) as (y2 & W2 & _ & _ & Z2 & _).
  destruct (inv_answers s w k W Hk) as [E1 E2].
  assert (Hk2 : in_table s2 k = true) by (unfold in_table in *; rewrite Z2, Z1; exact Hk).
  destruct (inv_answers s2 _ k W2 Hk2) as [F1 F2].
  cbn [base objs weak readonly] in F1, F2. unfold w1 in F1, F2. cbn [base objs weak readonly] in F1, F2.
  rewrite !swapped_twice in *.
  split; [congruence|]. split; [|split; [|auto]].
  - rewrite E1. destruct (objs (base w) k) as [c|] eqn:Ek; [|discriminate]. intros _.
    destruct (E2 c eq_refl) as (P1 & P2 & P3). destruct (F2 c eq_refl) as (Q1 & Q2 & Q3). conj.
  - rewrite E1. destruct (objs (base w) k) as [c|] eqn:Ek; [|discriminate]. intros _ N1 N2.
    destruct (E2 c eq_refl) as (P1 & _).
    destruct (proj2 (inv_answers s1 w1 k W1 ltac:(rewrite In1; exact Hk)) c) as (Q1 & _); [|congruence].
    cbn. unfold swapped. apply Z.eqb_neq in N1, N2. rewrite N1, N2. exact Ek.
Qed.

(** ** A weak object stops being weak *)
Definition strong_history : list prequest :=
  [Table_ (NewObject 10 0); Table_ (NewObject 20 0); MakeWeak 0; IsWeak 0; Become 0 1;
   Table_ (Contents 1); IsWeak 1; IsWeak 0].

Lemma strong_answers : exists s,
  prun (empty_table 4) strong_history
  = Ok (s, [PA (AOop 0); PA (AOop 1); PDone; PBool true; PDone; PA (ACont 10); PBool false; PBool false]).
Proof. eexists. vm_compute. reflexivity. Qed.

Lemma weak_lost : exists n rs s l, Forall pproper rs /\ prun (empty_table n) rs = Ok (s, l)
  /\ no_step_just_stops (empty_table n) rs
  /\ (exists k, nth_error rs k = Some (IsWeak 0) /\ nth_error l k = Some (PBool true)
        /\ nth_error rs (S k) = Some (Become 0 1) /\ nth_error l (S k) = Some PDone
        /\ nth_error rs (S (S (S k))) = Some (IsWeak 1) /\ nth_error l (S (S (S k))) = Some (PBool false))
  /\ ~ exists w, peffects pno_objects rs l w.
Proof.
  destruct strong_answers as (s & E).
  exists 4, strong_history, s. eexists. split; [|split; [exact E|split; [|split]]].
  - repeat constructor; cbn; discriminate.
  - vm_compute. repeat split; discriminate.
  - exists 3%nat. cbn. auto 10.
  - clear E. intros [w W].
    inversion W as [|? ? ? w1 ? ? ? E1 R1]; subst. clear W.
    inversion R1 as [|? ? ? w2 ? ? ? E2 R2]; subst. clear R1.
    inversion R2 as [|? ? ? w3 ? ? ? E3 R3]; subst. clear R2.
    inversion R3 as [|? ? ? w4 ? ? ? E4 R4]; subst. clear R3.
    inversion R4 as [|? ? ? w5 ? ? ? E5 R5]; subst. clear R4.
    inversion R5 as [|? ? ? w6 ? ? ? E6 R6]; subst. clear R5.
    inversion R6 as [|? ? ? w7 ? ? ? E7 R7]; subst. clear R6 R7.
    inversion E3; subst. inversion E4; subst. inversion E5; subst. clear E1 E2 E3 E4 E5.
    inversion E7 as [| | | | | | |? ? Hw|]; subst. clear E7.
    inversion E6 as [? ? ? wq ? ? HE HA HB| | | | | | | |]; subst. cbn [weak base] in *.
    assert (HU : used (objs wq) 1).
    { inversion HE; subst; unfold used, swapped; cbn; assumption. }
    destruct (HA 1 HU) as [HW _]; [discriminate|]. unfold swapped, up in HW. cbn in HW. congruence.
Qed.
