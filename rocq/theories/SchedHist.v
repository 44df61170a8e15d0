(** Histories of the scheduler. *)
From Verif Require Import Base Sched SchedLists SchedProofs SchedSpec SchedOps SchedExec.
Local Open Scope Z_scope.

Lemma walk_seg st : forall l f fuel, seg st f l None -> (length l <= fuel)%nat ->
  walk fuel st f = l.
Proof.
  induction l as [|x l IH]; intros f fuel H L; cbn in H.
  - subst f. destruct fuel; reflexivity.
  - destruct H as (-> & H). destruct fuel; [cbn in L; lia|]. cbn. f_equal.
    apply IH; auto. cbn in L; lia.
Qed.

Lemma queue_rep st q l : rep st q -> queue st l = q l.
Proof.
  intros R. unfold queue. apply walk_seg.
  - destruct R as (H & _). apply H.
  - eapply rep_len; eauto.
Qed.

Definition good (st : vm) : Prop := exists q, J st q /\ switch_to st = None.

Definition q0 (p k : Z) : Z -> list Z := fun l => if l =? k then [p] else [].

Lemma initial_rep p k sig : rep (initial p k sig) (q0 p k).
Proof.
  unfold q0. split; [|split; [|split; [|split]]].
  - intros l. cbn. destruct (l =? k); cbn; auto. rewrite Z.eqb_refl. cbn. auto.
  - intros l. cbn. destruct (l =? k); reflexivity.
  - intros x l. cbn. destruct (Z.eqb_spec x p) as [->|]; cbn.
    + destruct (Z.eqb_spec l k) as [->|]; cbn; intuition congruence.
    + destruct (l =? k); cbn; intuition congruence.
  - intros l. destruct (l =? k); repeat constructor. cbn; auto.
  - intros l x. destruct (l =? k); cbn; tauto.
Qed.

Lemma initial_J p k sig : legal k sig -> J (initial p k sig) (q0 p k).
Proof.
  intros (Hk & Hs). split; [apply initial_rep|].
  split.
  { intros x [<-|[]]. cbn. rewrite Z.eqb_refl. exact Hk. }
  split; [intros a Ha; cbn in *; inversion Ha; auto|].
  split; [intros a Ha; cbn in *; inversion Ha; auto|].
  split.
  { intros l x. unfold q0. destruct (l =? k); cbn; [|tauto]. intros [<-|[]].
    rewrite Z.eqb_refl. reflexivity. }
  split.
  { intros a Ha. cbn in Ha. inversion Ha; subst a. cbn. rewrite Z.eqb_refl.
    split; auto. intros s H. unfold q0. destruct (Z.eqb_spec s k); [lia|auto]. }
  split.
  { intros s. cbn. destruct (s =? k); cbn; auto. lia. }
  intros s H _. unfold q0. destruct (Z.eqb_spec s k); [lia|auto].
Qed.

Lemma switch_none st : switch_to (switch st) = None.
Proof. unfold switch. destruct (switch_to st) eqn:E; auto. Qed.

Lemma switch_active st : active (switch st) = active st.
Proof. unfold active, switch. destruct (switch_to st) eqn:E; cbn; [auto|rewrite E; auto]. Qed.

Lemma switch_fields st :
  procs (switch st) = procs st /\ sems (switch st) = sems st /\
  created (switch st) = created st /\ scheduled (switch st) = active st.
Proof. unfold active, switch. destruct (switch_to st) eqn:E; cbn; auto. Qed.

Lemma rep_fields a b q : procs b = procs a -> sems b = sems a -> created b = created a ->
  rep a q -> rep b q.
Proof.
  intros E1 E2 E3 (H1 & H2 & H3 & H4 & H5).
  split; [|split; [|split; [|split]]]; auto.
  - intros l. rewrite E2. eapply seg_frame; [|apply H1]. rewrite E1. auto.
  - intros l. rewrite E2. auto.
  - intros x l. rewrite E1. auto.
  - intros l x. rewrite E3. eauto.
Qed.

Lemma switch_J st q : J st q -> J (switch st) q.
Proof.
  intros (R & P & AC & SC & AL & AA & SG & SE).
  destruct (switch_fields st) as (E1 & E2 & E3 & E4).
  split; [eapply rep_fields; eauto|].
  split; [intros x; rewrite E1, E3; apply P|].
  split; [intros a; rewrite switch_active, E3; apply AC|].
  split; [intros a; rewrite E4, E3; apply AC|].
  split; [intros l x; rewrite E1; apply AL|].
  split; [intros a; rewrite switch_active, E1; apply AA|].
  split; [intros s; rewrite E2; apply SG|].
  intros s; rewrite E2; apply SE.
Qed.

Lemma step_ok st q x me o g st' :
  J st q -> switch_to st = None -> semeq st q x -> scheduled st = Some me ->
  step st o = Ok (g, st') ->
  exists q', done st q x me o g st' q' /\ switch_to st' = None /\
    exists st1, exec st me o = Ok (g, st1) /\ st' = switch st1.
Proof.
  intros HJ SW E Sm H. unfold step in H. rewrite Sm in H.
  destruct (exec_ok st q x me o HJ E Sm SW) as [X|(g1 & st1 & q' & X & D)];
    rewrite X in H; cbn [obind] in H; [discriminate|].
  inversion H; subst g1 st'. exists q'. split; [|split; [apply switch_none|eauto]].
  destruct D as (D1 & D2 & D3 & D4 & D5 & D6).
  destruct (switch_fields st1) as (E1 & E2 & E3 & E4).
  split; [apply switch_J; auto|].
  split; [intros s Hs; rewrite E2; apply D2; auto|].
  split; [exact D3|].
  split; [intros s p Hp; rewrite E1; apply D4; auto|].
  split; [exact D5|].
  intros RT HP. eapply Pr_same; [| |exact (D6 RT HP)].
  - intros p; rewrite E1; auto.
  - apply switch_active.
Qed.

Lemma run_cons st o h t st' :
  run st (o :: h) = Ok (t, st') ->
  exists g st1 t', step st o = Ok (g, st1) /\ run st1 h = Ok (t', st') /\ t = (o, g) :: t'.
Proof.
  cbn [run]. destruct (step st o) as [[g st1]| | | |]; cbn [obind]; try discriminate.
  destruct (run st1 h) as [[t' st2]| | | |] eqn:ER; cbn [obind]; try discriminate.
  intros H; inversion H; subst. exists g, st1, t'. rewrite ER. auto.
Qed.

Lemma step_sched st o r : step st o = Ok r -> exists me, scheduled st = Some me.
Proof. unfold step. destruct (scheduled st); [eauto|discriminate]. Qed.

Definition here (st : vm) (q : Z -> list Z) : sstate := (fun s => signals (sems st s), q).
Lemma semeq_here st q : semeq st q (here st q).
Proof. intros s Hs. split; reflexivity. Qed.

Lemma run_good h : forall st t st', good st -> run st h = Ok (t, st') -> good st'.
Proof.
  induction h as [|o h IH]; intros st t st' G H.
  - cbn in H. inversion H; subst; auto.
  - apply run_cons in H as (g & st1 & t' & H1 & H2 & _).
    destruct (step_sched _ _ _ H1) as (me & Sm). destruct G as (q & HJ & SW).
    destruct (step_ok _ _ _ _ _ _ _ HJ SW (semeq_here st q) Sm H1) as (q' & (J' & _) & SW' & _).
    eapply IH; [|exact H2]. exists q'; auto.
Qed.

Lemma initial_good p k sig : legal k sig -> good (initial p k sig).
Proof. intros L. exists (q0 p k). split; [apply initial_J; auto|reflexivity]. Qed.

(** ** Counting *)
Lemma granted_app s a b : granted s (a ++ b) = granted s a + granted s b.
Proof. unfold granted. rewrite filter_app, app_length. apply Nat2Z.inj_add. Qed.

Lemma granted_one s s' p : granted s [(s', p)] = if s' =? s then 1 else 0.
Proof. unfold granted. cbn. destruct (s' =? s); reflexivity. Qed.
Lemma granted_nil s : granted s [] = 0.
Proof. reflexivity. Qed.

Lemma granted_spec_signal s s' x c :
  granted s (fst (spec_signal s' c x)) + fst (snd (spec_signal s' c x)) s
  = fst x s + (if (s' =? s) then (match snd x s' with [] => if c then 1 else 0 | _ => 1 end) else 0).
Proof.
  unfold spec_signal. destruct (snd x s') as [|p r] eqn:E; cbn [fst snd].
  - rewrite granted_nil. destruct c; unfold put; cbn [fst snd]; rewrite (Z.eqb_sym s' s);
      destruct (Z.eqb_spec s s'); subst; lia.
  - rewrite granted_one. destruct (s' =? s); lia.
Qed.

Lemma spec_signals_count s ss : forall x,
  granted s (fst (spec_signals ss x)) + fst (snd (spec_signals ss x)) s
  = fst x s + Z.of_nat (count_occ Z.eq_dec ss s).
Proof.
  induction ss as [|s' ss IH]; intros x; [cbn; lia|].
  cbn [spec_signals]. pose proof (granted_spec_signal s s' x true) as H.
  destruct (spec_signal s' true x) as [g1 x1]. cbn [fst snd] in H.
  specialize (IH x1). destruct (spec_signals ss x1) as [g2 x2]. cbn [fst snd] in *.
  rewrite granted_app.
  destruct (Z.eq_dec s' s) as [->|N].
  - rewrite Z.eqb_refl in H. rewrite count_occ_cons_eq by auto.
    destruct (snd x s); lia.
  - rewrite count_occ_cons_neq by auto. apply Z.eqb_neq in N. rewrite N in H. lia.
Qed.

Lemma spec_wait_count s me s' x :
  granted s (fst (spec_wait me s' x)) + fst (snd (spec_wait me s' x)) s = fst x s.
Proof.
  unfold spec_wait. destruct (Z.ltb_spec 0 (fst x s')); cbn [fst snd].
  - rewrite granted_one. unfold put. rewrite (Z.eqb_sym s' s).
    destruct (Z.eqb_spec s s'); subst; lia.
  - rewrite granted_nil. lia.
Qed.

Lemma spec_wait_same me w s x :
  fst (snd (spec_wait w s x)) = fst (snd (spec_wait me s x)).
Proof. unfold spec_wait. destruct (0 <? fst x s); reflexivity. Qed.

Lemma semspec_count s me w o x :
  uncounted s o = false ->
  granted s (fst (semspec me o x)) + fst (snd (semspec w o x)) s = fst x s + sent s o.
Proof.
  destruct o as [s1|s1|s1|s1|s1|s1 s2|p|p| |p|p k|p k|p k|ss slice];
    cbn [semspec uncounted sent]; intros U; try (unfold granted; cbn; lia).
  - assert (H := spec_wait_count s me s1 x). rewrite (spec_wait_same me w). lia.
  - rewrite granted_spec_signal. destruct (s1 =? s); destruct (snd x s1); lia.
  - rewrite granted_spec_signal, U. lia.
  - cbn [fst snd]. unfold granted. rewrite Z.add_comm. 
    replace (filter _ _) with (@nil grant); [cbn; lia|].
    induction (snd x s1) as [|y r IH]; cbn; auto. rewrite U. auto.
  - cbn [fst snd granted filter length]. unfold put, granted. rewrite Z.eqb_sym in U. rewrite U.
    cbn. lia.
  - pose proof (granted_spec_signal s s2 x true) as H.
    destruct (spec_signal s2 true x) as [g1 x1]. cbn [fst snd] in H.
    pose proof (spec_wait_count s me s1 x1) as H2.
    pose proof (spec_wait_same me w s1 x1) as H3.
    destruct (spec_wait me s1 x1) as [g2 x2], (spec_wait w s1 x1) as [g3 x3].
    cbn [fst snd] in *. rewrite granted_app, H3.
    destruct (s2 =? s), (snd x s2); lia.
  - apply spec_signals_count.
Qed.

Lemma run_counted s h : nprio < s -> existsb (uncounted s) h = false ->
  forall st t st', good st -> run st h = Ok (t, st') ->
  signals (sems st s) + total_sent s h = total_granted s t + signals (sems st' s).
Proof.
  intros Hs. unfold total_sent, total_granted.
  induction h as [|o h IH]; intros U st t st' G H.
  - cbn in H. inversion H; subst. cbn. lia.
  - cbn [existsb] in U. apply orb_false_iff in U as (U1 & U2).
    apply run_cons in H as (g & st1 & t' & H1 & H2 & ->).
    destruct (step_sched _ _ _ H1) as (me & Sm). destruct G as (q & HJ & SW).
    destruct (step_ok _ _ _ _ _ _ _ HJ SW (semeq_here st q) Sm H1) as (q' & D & SW' & _).
    destruct D as (J' & E' & G' & _).
    specialize (IH U2 st1 t' st' (ex_intro _ q' (conj J' SW')) H2).
    pose proof (semspec_count s me (waiter st q me o) o (here st q) U1) as C.
    rewrite <- G' in C. destruct (E' s Hs) as (E1 & _). rewrite <- E1 in C.
    cbn [here fst] in C. cbn [map fold_right snd]. lia.
Qed.

(** ** What a step does, in terms of [queue] *)
Lemma here_queue st q : rep st q -> semeq st q (fun s => signals (sems st s), queue st).
Proof.
  intros R s Hs. cbn. split; auto. symmetry. apply queue_rep; auto.
Qed.

Lemma step_spec st o g st' me :
  good st -> scheduled st = Some me -> step st o = Ok (g, st') ->
  exists w, (is_wait_after o = false -> w = me) /\
    sems_are st' (snd (semspec w o (signals_of st))) /\
    g = fst (semspec me o (signals_of st)).
Proof.
  intros (q & HJ & SW) Sm H.
  destruct (step_ok _ _ (signals_of st) _ _ _ _ HJ SW (here_queue st q (proj1 HJ)) Sm H)
    as (q' & (J' & E' & G' & _) & _).
  exists (waiter st q me o). split; [destruct o; cbn; congruence|]. split; [|exact G'].
  intros s Hs. rewrite (queue_rep _ _ s (proj1 J')). apply E'; auto.
Qed.

Lemma step_answer st o g st' me s p :
  good st -> scheduled st = Some me -> step st o = Ok (g, st') -> In (s, p) g ->
  top (procs st' p) = Some s.
Proof.
  intros (q & HJ & SW) Sm H.
  destruct (step_ok _ _ _ _ _ _ _ HJ SW (semeq_here st q) Sm H)
    as (q' & (J' & E' & G' & A' & _) & _). apply A'.
Qed.

Lemma good_excess st s : good st -> nprio < s -> 0 < signals (sems st s) -> queue st s = [].
Proof.
  intros (q & HJ & SW) Hs H. rewrite (queue_rep _ _ s (proj1 HJ)).
  destruct HJ as (_ & _ & _ & _ & _ & _ & _ & SE). auto.
Qed.

Lemma good_nonneg st s : good st -> 0 <= signals (sems st s).
Proof. intros (q & HJ & SW). destruct HJ as (_ & _ & _ & _ & _ & _ & SG & _). auto. Qed.

Lemma good_lists st : good st ->
  (forall l, NoDup (queue st l)) /\
  (forall p l l', In p (queue st l) -> In p (queue st l') -> l = l').
Proof.
  intros (q & HJ & SW). pose proof (proj1 HJ) as R. split.
  - intros l. rewrite (queue_rep _ _ l R). eapply rep_ND; eauto.
  - intros p l l'. rewrite (queue_rep _ _ l R), (queue_rep _ _ l' R). apply (rep_UN _ _ R).
Qed.

(** ** Priorities *)
Lemma initial_Pr p k sig : Pr (initial p k sig) (q0 p k).
Proof.
  split; [|split].
  - intros j x _. unfold q0. destruct (Z.eqb_spec j k) as [->|]; cbn; [|tauto].
    intros [<-|[]]. rewrite Z.eqb_refl. reflexivity.
  - intros a Ha. cbn in Ha. inversion Ha; subst a. cbn. rewrite Z.eqb_refl. cbn.
    unfold q0. split; [rewrite Z.eqb_refl; left; auto|].
    intros j x _. destruct (Z.eqb_spec j k) as [->|]; cbn; [lia|tauto].
  - discriminate.
Qed.

Lemma run_Pr h : existsb rotates h = false -> forall st t st' q,
  J st q -> switch_to st = None -> Pr st q -> run st h = Ok (t, st') ->
  exists q', J st' q' /\ switch_to st' = None /\ Pr st' q'.
Proof.
  induction h as [|o h IH]; intros U st t st' q HJ SW HP H.
  - cbn in H. inversion H; subst. eauto.
  - cbn [existsb] in U. apply orb_false_iff in U as (U1 & U2).
    apply run_cons in H as (g & st1 & t' & H1 & H2 & ->).
    destruct (step_sched _ _ _ H1) as (me & Sm).
    destruct (step_ok _ _ _ _ _ _ _ HJ SW (semeq_here st q) Sm H1)
      as (q' & (J' & _ & _ & _ & _ & P') & SW' & _).
    eapply IH; eauto.
Qed.

Lemma run_priority p k sig h t st :
  legal k sig -> existsb rotates h = false ->
  run (initial p k sig) h = Ok (t, st) ->
  forall a x, scheduled st = Some a -> ready st x ->
  priority (procs st x) <= priority (procs st a).
Proof.
  intros L U H a x Sa (j & Hj & X).
  destruct (run_Pr h U _ _ _ _ (initial_J p k sig L) eq_refl (initial_Pr p k sig) H)
    as (q & HJ & SW & (P1 & P2 & _)).
  rewrite (queue_rep _ _ j (proj1 HJ)) in X.
  assert (Ea : active st = Some a) by (unfold active; rewrite SW; auto).
  rewrite (P1 j x Hj X). exact (proj2 (P2 a Ea) j x Hj X).
Qed.

(** ** Nobody is lost *)
Lemma step_not_lost st o g st' p :
  good st -> step st o = Ok (g, st') -> may_lose o = false -> ready st p ->
  ready st' p \/ (exists s, waiting st' p s /\ (o = Wait s \/ exists s2, o = WaitAfter s s2))
  \/ o = Suspend p \/ o = Terminate p.
Proof.
  intros (q & HJ & SW) H ML (k & Hk & Hp).
  rewrite (queue_rep _ _ k (proj1 HJ)) in Hp.
  destruct (step_sched _ _ _ H) as (me & Sm).
  destruct (step_ok _ _ _ _ _ _ _ HJ SW (semeq_here st q) Sm H)
    as (q' & (J' & E' & G' & _ & N' & _) & _).
  specialize (N' ML).
  assert (Q : forall l, queue st' l = q' l) by (intros l; apply queue_rep; apply J').
  assert (D : exempt o (waiter st q me o) p \/ ~ exempt o (waiter st q me o) p).
  { destruct o; cbn; try tauto; match goal with |- ?a = ?b \/ _ => destruct (Z.eq_dec a b); auto end. }
  destruct D as [D|D].
  2:{ destruct (N' p k Hk Hp D) as (l' & Hl' & X). left. exists l'. rewrite Q. auto. }
  destruct o as [s|s|s|s|s|s s2|x|x| |x|x y|x y|x y|ss slice]; try (cbn in D; contradiction).
  - (* Wait *)
    cbn in D. subst p. unfold step in H. rewrite Sm in H.
    assert (Hs : nprio < s).
    { unfold exec, check in H. destruct (is_sem s) eqn:X; [|discriminate].
      unfold is_sem in X. lia. }
    destruct (E' s Hs) as (E1 & E2). cbn [semspec waiter] in *. unfold spec_wait, here in *.
    cbn [fst snd] in *. destruct (Z.ltb_spec 0 (signals (sems st s))) as [L|L].
    + (* the process goes on *) left.
      unfold exec, check in H. destruct (is_sem s); [|discriminate].
      unfold sync_wait in H. cbn [sems set_top with_proc] in H.
      destruct (Z.leb_spec (signals (sems st s)) 0); [lia|]. cbn [obind] in H.
      inversion H; subst st'. 
      exists k. split; auto.
      match goal with |- In me (queue (switch ?s1) k) =>
        assert (R' : rep (switch s1) q) end.
      { eapply rep_fields; [| | |apply rep_signals, rep_top, HJ];
        match goal with |- _ (switch ?s1) = _ =>
          destruct (switch_fields s1) as (A & B & C & _); eassumption end. }
      rewrite (queue_rep _ _ k R'). exact Hp.
    + right. left. exists s. split; [|auto]. split; auto. rewrite Q, E2. cbn. unfold put.
      rewrite Z.eqb_refl. apply in_or_app; right; left; auto.
  - (* WaitAfter *)
    cbn [exempt] in D. subst p. unfold step in H. rewrite Sm in H.
    assert (Hs : nprio < s /\ nprio < s2).
    { unfold exec, check in H. destruct (is_sem s && is_sem s2) eqn:X; [|discriminate].
      unfold is_sem in X. lia. }
    destruct Hs as (Hs & Hs2).
    destruct (E' s Hs) as (E1 & E2). cbn [semspec] in E1, E2.
    set (w := waiter st q me (WaitAfter s s2)) in *.
    destruct (spec_signal s2 true (here st q)) as [g1 x1] eqn:ES.
    unfold spec_wait in E1, E2. destruct (Z.ltb_spec 0 (fst x1 s)) as [L|L]; cbn [fst snd] in *.
    2:{ right. left. exists s. split; [|eauto]. split; auto. rewrite Q, E2. unfold put.
        rewrite Z.eqb_refl. apply in_or_app; right; left; auto. }
    left.
    (* an immediate wait leaves the lists as the signal made them *)
    unfold exec, check in H.
    replace (is_sem s && is_sem s2) with true in H by (unfold is_sem; lia).
    assert (J0 : J (set_top st me (Some s)) q) by (apply J_top; auto).
    destruct (sync_signal_J (set_top st me (Some s)) q s2 true J0 Hs2)
      as (o & st1 & q1 & X1 & J1 & F1 & S1 & H1).
    rewrite X1 in H. cbn [obind] in H.
    destruct (signalled_sem (set_top st me (Some s)) q (here st q) s2 true o st1 q1 Hs2 (semeq_here st q) H1) as (E3 & G3).
    rewrite ES in E3. cbn [snd] in E3. destruct (E3 s Hs) as (E4 & _).
    unfold sync_wait in H. destruct (Z.leb_spec (signals (sems st1 s)) 0); [lia|].
    cbn [obind] in H. inversion H; subst st'.
    pose proof (signalled_NL (fun _ => False) _ _ _ _ _ _ _ J0 Hs2 H1) as NLs.
    destruct (NLs w k Hk Hp (fun x => x)) as (l' & Hl' & Y).
    exists l'. split; auto.
    assert (R' : rep (switch (set_signals st1 s (signals (sems st1 s) - 1))) q1).
    { eapply rep_fields; [| | |apply rep_signals, J1];
      destruct (switch_fields (set_signals st1 s (signals (sems st1 s) - 1))) as (A & B & C & _); eauto. }
    rewrite (queue_rep _ _ l' R'). exact Y.
  - cbn in D. subst. auto.
  - cbn in D. subst. auto.
Qed.

(** ** Progress *)
Lemma run_progress h : forall st, good st ->
  match run st h with
  | Ok _ | Err => True
  | UB => exists h1 h2 t st1, h = h1 ++ h2 /\ run st h1 = Ok (t, st1) /\ scheduled st1 = None
  | Abort | OutOfFuel => False
  end.
Proof.
  induction h as [|o h IH]; intros st G; [exact Logic.I|].
  cbn [run]. destruct (scheduled st) as [me|] eqn:Sm.
  - pose proof G as (q & HJ & SW).
    destruct (exec_ok st q (here st q) me o HJ (semeq_here st q) Sm SW)
      as [X|(g & st1 & q' & X & D)].
    + unfold step. rewrite Sm, X. exact Logic.I.
    + assert (ST : step st o = Ok (g, switch st1)) by (unfold step; rewrite Sm, X; reflexivity).
      rewrite ST. cbn [obind].
      assert (G1 : good (switch st1)).
      { exists q'. split; [apply switch_J; apply D|apply switch_none]. }
      specialize (IH _ G1). destruct (run (switch st1) h) as [[t st2]| | | |] eqn:ER;
        cbn [obind]; auto.
      destruct IH as (h1 & h2 & t & st3 & -> & R1 & S1).
      exists (o :: h1), h2, ((o, g) :: t), st3. split; [reflexivity|]. split; auto.
      cbn [run]. rewrite ST. cbn [obind]. rewrite R1. reflexivity.
  - unfold step at 1. rewrite Sm. cbn [obind].
    exists [], (o :: h), [], st. auto.
Qed.

(** ** Yield *)
Lemma step_yield st g st' me :
  good st -> settled st -> scheduled st = Some me -> ready st me ->
  step st Yield = Ok (g, st') ->
  queue st' (priority (procs st me)) = others me (queue st (priority (procs st me))) ++ [me] /\
  ((forall j, priority (procs st me) < j <= nprio -> queue st j = []) ->
   forall p r, others me (queue st (priority (procs st me))) = p :: r -> scheduled st' = Some p).
Proof.
  intros (q & HJ & SW) ST Sm (k & Hk & Hme) H.
  pose proof HJ as (R & P & AC & SC & AL & AAH & SG & SE).
  assert (Q : forall l, queue st l = q l) by (intros; apply queue_rep; auto).
  pose proof (ST k me Hk Hme) as Ek. rewrite Q in Hme. rewrite Ek in *.
  assert (ST' : forall j x, rdy j -> In x (q j) -> priority (procs st x) = j).
  { intros j x Hj X. apply ST; auto. rewrite Q; auto. }
  assert (Ea : active st = Some me) by (unfold active; rewrite SW; auto).
  unfold step in H. rewrite Sm in H. unfold exec in H. rewrite Ea in H.
  destruct (yield_J st q me HJ Sm SW) as (st1 & E1 & J1 & S1 & SC1 & SW1 & Q1 & _).
  rewrite E1 in H. cbn [obind] in H. inversion H; subst g st'. clear H.
  assert (R' : rep (switch st1) (snd (qyield st q me))).
  { destruct (switch_fields st1) as (A & B & C & _). eapply rep_fields; eauto. apply J1. }
  rewrite !Q, (queue_rep _ _ k R').
  unfold others. rewrite <- remove_filter.
  pose proof (rep_ND _ _ R k) as ND.
  assert (SCH : scheduled (switch st1) = Some match fst (qyield st q me) with None => me | Some p => p end).
  { destruct (switch_fields st1) as (_ & _ & _ & ->). unfold active. rewrite SW1. reflexivity. }
  rewrite SCH. clear SCH.
  unfold qyield in *. destruct (ahigh (Z.to_nat nprio) (Some me) q) as [o q1] eqn:EH.
  rewrite Ek in *.
  assert (M : my_list (procs st me) = Some k) by (apply (rep_my _ _ R); auto).
  rewrite M in *. cbn [oeq] in *. rewrite Z.eqb_refl in *. cbn [fst snd] in *.
  destruct o as [p|].
  - destruct (ahigh_facts _ _ _ _ _ R EH) as ((l & Ll & Lp) & Nap & I1 & SQ).
    destruct (ahigh_some _ _ _ _ _ (rep_ND _ _ R) EH) as (l0 & L0 & _ & ID & HH).
    change (Z.of_nat (Z.to_nat nprio)) with nprio in L0, ID.
    assert (l0 = l).
    { eapply (rep_unique _ _ p l0 l R); [|exact Lp].
      destruct HH as [(r & E & _)|(b & r & _ & E & _)]; rewrite E; cbn; auto. }
    subst l0. rewrite (ST' l p Ll Lp).
    assert (RQ : forall r, remove Z.eq_dec me (q k) = r -> True) by auto.
    destruct (Z.eq_dec l k) as [->|N].
    + assert (RR : exists r, remove Z.eq_dec me (q k) = p :: r /\
                    remove Z.eq_dec me (q1 k) = r /\ ~ In p r /\ ~ In p (q1 k)).
      { destruct HH as [(r & E & ->)|(b & r & Eb & E & ->)]; unfold qset; rewrite Z.eqb_refl.
        - exists (remove Z.eq_dec me r). rewrite E in ND |- *.
          inversion ND as [|? ? Ni ND']; subst. cbn [remove].
          destruct (Z.eq_dec me p); [congruence|]. rewrite In_remove. tauto.
        - inversion Eb; subst b. rewrite E in ND |- *.
          inversion ND as [|? ? Ni ND']; subst. inversion ND' as [|? ? Ni' ND'']; subst.
          exists r. cbn [remove]. destruct (Z.eq_dec me me); [|congruence].
          destruct (Z.eq_dec me p); [congruence|].
          rewrite remove_app, !(remove_notin me r) by (cbn in Ni; tauto).
          cbn [remove]. destruct (Z.eq_dec me me); [|congruence]. rewrite app_nil_r.
          split; [reflexivity|]. split; [reflexivity|]. split; auto.
          rewrite in_app_iff. cbn. intuition. }
      destruct RR as (r & RR1 & RR2 & RR3 & RR4).
      rewrite RR1. split.
      * unfold qfirst, qset at 1. rewrite Z.eqb_refl. cbn [app]. f_equal.
        unfold qrem, qlast, qset. rewrite Z.eqb_refl. unfold qrem. rewrite RR2.
        rewrite remove_app. cbn [remove]. destruct (Z.eq_dec p me); [congruence|].
        rewrite remove_notin; auto.
      * intros _ p' r' X. inversion X; subst; auto.
    + assert (Q1k : q1 k = q k).
      { destruct HH as [(r & E & ->)|(b & r & Eb & E & ->)]; unfold qset;
          destruct (Z.eqb_spec k l); congruence. }
      split.
      * rewrite qfirst_other by auto. unfold qrem, qlast, qset. rewrite Z.eqb_refl.
        unfold qrem. rewrite Q1k. rewrite remove_app. cbn [remove].
        destruct (Z.eq_dec p me); [congruence|].
        rewrite remove_notin; auto. rewrite In_remove. intros (X & _).
        apply N. exact (rep_unique _ _ _ _ _ R Lp X).
      * intros EM p' r' X. exfalso.
        assert (Np' : In p' (q k) /\ p' <> me).
        { rewrite <- In_remove. rewrite X. left; auto. }
        destruct (Z.lt_trichotomy l k) as [G|[G|G]]; [|congruence|].
        -- destruct (ID k ltac:(lia)) as [Y|(b & Eb & Y)]; rewrite Y in *.
           ++ destruct Np' as ([] & _).
           ++ inversion Eb; subst b. destruct Np' as ([|[]] & ?). congruence.
        -- specialize (EM l ltac:(lia)). rewrite Q in EM. rewrite EM in Lp. contradiction.
  - apply ahigh_none in EH as (-> & ID). split.
    + unfold qlast, qset. rewrite Z.eqb_refl. unfold qrem. reflexivity.
    + intros EM p' r' X. exfalso.
      assert (Np' : In p' (q k) /\ p' <> me).
      { rewrite <- In_remove. rewrite X. left; auto. }
      change (Z.of_nat (Z.to_nat nprio)) with nprio in ID.
      destruct (ID k Hk) as [Y|(b & Eb & Y)]; rewrite Y in *.
      * destruct Np' as ([] & _).
      * inversion Eb; subst b. destruct Np' as ([|[]] & ?). congruence.
Qed.

(** ** waitAfterSignalling: *)
Lemma step_wait_after st s s2 g st' me :
  good st -> scheduled st = Some me -> step st (WaitAfter s s2) = Ok (g, st') ->
  s <> s2 -> signals (sems st s) = 0 ->
  (forall p r, queue st s2 = p :: r -> priority (procs st p) < priority (procs st me)) ->
  waiting st' me s.
Proof.
  intros (q & HJ & SW) Sm H NE Z0 LOW.
  destruct (step_ok _ _ (here st q) _ _ _ _ HJ SW (semeq_here st q) Sm H)
    as (q' & (J' & E' & G' & _) & _).
  assert (Hs : nprio < s /\ nprio < s2).
  { unfold step in H. rewrite Sm in H. unfold exec, check in H.
    destruct (is_sem s && is_sem s2) eqn:X; [|discriminate]. unfold is_sem in X. lia. }
  destruct Hs as (Hs & Hs2).
  assert (W : waiter st q me (WaitAfter s s2) = me).
  { cbn. destruct (q s2) as [|p r] eqn:X; auto.
    specialize (LOW p r). rewrite (queue_rep _ _ _ (proj1 HJ)), X in LOW.
    specialize (LOW eq_refl). destruct (Z.leb_spec (priority (procs st me)) (priority (procs st p))); [lia|auto]. }
  rewrite W in E'. destruct (E' s Hs) as (_ & E2). split; auto.
  rewrite (queue_rep _ _ s (proj1 J')), E2. cbn [semspec].
  assert (F : fst (snd (spec_signal s2 true (here st q))) s = 0).
  { unfold spec_signal. cbn [here snd]. destruct (q s2); cbn; auto. unfold put.
    destruct (Z.eqb_spec s s2); [congruence|auto]. }
  destruct (spec_signal s2 true (here st q)) as [g1 x1]. cbn [fst snd] in *.
  unfold spec_wait. rewrite F. cbn. unfold put. rewrite Z.eqb_refl.
  apply in_or_app; right; left; auto.
Qed.

Lemma step_wait st s me g st' :
  good st -> scheduled st = Some me -> nprio < s -> step st (Wait s) = Ok (g, st') ->
  (0 < signals (sems st s) -> g = [(s, me)] /\ signals (sems st' s) = signals (sems st s) - 1 /\ queue st' s = queue st s) /\
  (signals (sems st s) = 0 -> g = [] /\ signals (sems st' s) = 0 /\ queue st' s = queue st s ++ [me]).
Proof.
  intros G Sm Hs H. destruct (step_spec st (Wait s) g st' me G Sm H) as (w & E & A & B).
  rewrite (E eq_refl) in A. destruct (A s Hs) as (A1 & A2). cbn [semspec] in *.
  unfold spec_wait, signals_of in *. cbn [fst snd] in *.
  destruct (Z.ltb_spec 0 (signals (sems st s))); cbn [fst snd] in *; unfold put in *;
    rewrite ?Z.eqb_refl in *; split; intros X; try lia; auto. rewrite A1. auto.
Qed.
