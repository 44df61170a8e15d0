(** One operation, and histories of operations. *)
From Verif Require Import Base Sched SchedLists SchedProofs SchedSpec SchedOps.
Local Open Scope Z_scope.

Lemma is_proc_In st p : is_proc st p = true <-> In p (created st).
Proof.
  unfold is_proc. rewrite existsb_exists. split.
  - intros (x & H & E). apply Z.eqb_eq in E. subst; auto.
  - intros H. exists p. split; auto. apply Z.eqb_refl.
Qed.

Lemma remove_filter (p : Z) l :
  remove Z.eq_dec p l = filter (fun y => negb (y =? p)) l.
Proof.
  induction l as [|x l IH]; cbn; auto.
  destruct (Z.eq_dec p x), (Z.eqb_spec x p); cbn; try congruence.
Qed.

Lemma semeq_leave st q x p st' q' :
  semeq st q x -> same0 st st' -> (forall s, nprio < s -> q' s = qrem p q s) ->
  semeq st' q' (spec_leave p x).
Proof.
  intros E S0 H s Hs. destruct (E s Hs) as (E1 & E2). cbn.
  rewrite (same0_sig _ _ s S0), H by auto. split; auto.
  unfold qrem. rewrite remove_filter, E2. reflexivity.
Qed.

Lemma semeq_same st q x st' q' :
  semeq st q x -> (forall s, signals (sems st' s) = signals (sems st s)) ->
  (forall s, nprio < s -> q' s = q s) -> semeq st' q' x.
Proof.
  intros E S0 H s Hs. destruct (E s Hs) as (E1 & E2). rewrite S0, H by auto. auto.
Qed.

Lemma J_prio st q p k : J st q -> 1 <= k <= nprio -> J (set_priority st p k) q.
Proof.
  intros (R & P & AC & SC & AL & AA & SG & SE) Hk.
  split; [apply rep_prio; auto|]. split.
  { intros x Hx. cbn. destruct (x =? p); cbn; [exact Hk|apply P; auto]. }
  split; [exact AC|]. split; [exact SC|]. split.
  { intros l x Hx. cbn. destruct (x =? p); cbn; eauto. }
  split; [|split; [exact SG|exact SE]].
  intros a Ha. cbn. split; [destruct (a =? p); cbn; apply AA; auto|apply AA; auto].
Qed.

Lemma in_range_iff k : in_range k = true <-> 1 <= k <= nprio.
Proof. unfold in_range. lia. Qed.

Definition new_process (st : vm) (p k : Z) : vm :=
  mkVM (fun x => if x =? p then mkP k None None true None else procs st x)
       (sems st) (p :: created st) (scheduled st) (switch_to st).

Lemma J_new st q p k :
  J st q -> ~ In p (created st) -> 1 <= k <= nprio -> J (new_process st p k) q.
Proof.
  intros (R & P & AC & SC & AL & AA & SG & SE) Np Hk.
  pose proof R as (H1 & H2 & H3 & H4 & H5).
  assert (NQ : forall l, ~ In p (q l)) by (intros l X; apply Np; eauto).
  split.
  { split; [|split; [|split; [|split]]]; auto.
    - intros l. eapply seg_frame; [|apply H1]. intros x Hx. cbn.
      destruct (Z.eqb_spec x p) as [->|]; auto. exfalso; eapply NQ; eauto.
    - intros x l. cbn. destruct (Z.eqb_spec x p) as [->|]; cbn; auto.
      split; [discriminate|]. intros X; exfalso; eapply NQ; eauto.
    - intros l x X. right. eauto. }
  split.
  { intros x [<-|Hx]; cbn; [rewrite Z.eqb_refl; cbn; exact Hk|].
    destruct (Z.eqb_spec x p) as [->|]; [contradiction|apply P; auto]. }
  split; [intros a Ha; right; apply AC; exact Ha|].
  split; [intros a Ha; right; apply SC; exact Ha|].
  split.
  { intros l x X. cbn. destruct (x =? p); cbn; eauto. }
  split; [|split; [exact SG|exact SE]].
  intros a Ha. cbn. split; [|apply AA; auto].
  destruct (a =? p); cbn; auto. apply AA; auto.
Qed.

(** Processes that an operation may take out of the ready lists. *)
Definition exempt (o : op) (w y : Z) : Prop :=
  match o with
  | Wait _ | WaitAfter _ _ => y = w
  | Suspend p | Terminate p => y = p
  | _ => False
  end.

Definition waiter (st : vm) (q : Z -> list Z) (me : Z) (o : op) : Z :=
  match o with
  | WaitAfter s s2 =>
      match q s2 with
      | [] => me
      | p :: _ => if priority (procs st me) <=? priority (procs st p) then p else me
      end
  | _ => me
  end.

Definition done (st : vm) (q : Z -> list Z) (x : sstate) (me : Z) (o : op)
    (g : list grant) (st1 : vm) (q' : Z -> list Z) : Prop :=
  J st1 q' /\
  semeq st1 q' (snd (semspec (waiter st q me o) o x)) /\
  g = fst (semspec me o x) /\
  (forall s p, In (s, p) g -> top (procs st1 p) = Some s) /\
  (may_lose o = false -> NL (exempt o (waiter st q me o)) q q') /\
  (rotates o = false -> Pr st q -> Pr st1 q').

Lemma Pr_same st st' q :
  (forall p, priority (procs st' p) = priority (procs st p)) ->
  active st' = active st -> Pr st q -> Pr st' q.
Proof.
  intros A B (X & Y & Z). split; [|split].
  - intros; rewrite A; auto.
  - intros a. rewrite B, A. auto.
  - rewrite B. auto.
Qed.

Lemma exec_ok st q x me o :
  J st q -> semeq st q x -> scheduled st = Some me -> switch_to st = None ->
  exec st me o = Err \/
  exists g st1 q', exec st me o = Ok (g, st1) /\ done st q x me o g st1 q'.
Proof.
  intros HJ E Sm SW. pose proof HJ as (R & P & AC & SC & AL & AAH & SG & SE).
  assert (Ea : active st = Some me) by (unfold active; rewrite SW; auto).
  destruct (AAH me Ea) as (Alm & NSm).
  destruct o as [s|s|s|s|s|s s2|p|p| |p|p k|p k|p k|ss slice]; unfold exec, check.
  - (* Wait *)
    destruct (is_sem s) eqn:HS; [|left; reflexivity]. unfold is_sem in HS.
    apply Z.ltb_lt in HS.
    assert (J0 : J (set_top st me (Some s)) q) by (apply J_top; auto).
    destruct (sync_wait_J (set_top st me (Some s)) q x me me s J0 E HS Sm Ea)
      as [->|(b & st1 & q1 & -> & J1 & F1 & E1 & G1 & N1 & T1 & P1)]; [left; reflexivity|].
    right. cbn [obind]. eexists. exists st1, q1. split; [reflexivity|].
    split; [auto|]. cbn [semspec waiter].
    split; [exact E1|]. split; [rewrite G1; destruct b; reflexivity|].
    split.
    { intros s' p Hp. destruct b; [|contradiction]. destruct Hp as [Hp|[]].
      inversion Hp; subst. rewrite T1. cbn. rewrite Z.eqb_refl. reflexivity. }
    split; [intros _; exact N1|]. intros _ HP. apply P1; auto.
    eapply Pr_same; [| |exact HP]; [intros y; cbn; destruct (y =? me); auto|reflexivity].
  - (* Signal *)
    destruct (is_sem s) eqn:HS; [|left; reflexivity]. unfold is_sem in HS.
    apply Z.ltb_lt in HS. right.
    destruct (sync_signal_J st q s true HJ HS) as (o & st1 & q1 & -> & J1 & F1 & S1 & H1).
    destruct (signalled_sem _ _ _ _ _ _ _ _ HS E H1) as (E2 & G1).
    cbn [obind]. eexists. exists st1, q1. split; [reflexivity|].
    split; [auto|]. cbn [semspec]. split; [exact E2|]. split; [auto|].
    split; [intros s' p Hp; apply (signalled_TPR _ _ _ _ _ _ _ R HS H1); exact Hp|].
    split; [intros _; exact (signalled_NL _ _ _ _ _ _ _ _ HJ HS H1)|].
    intros _. exact (signalled_P _ _ _ _ _ _ _ HJ HS F1 S1 H1).
  - (* Notify *)
    destruct (is_sem s) eqn:HS; [|left; reflexivity]. unfold is_sem in HS.
    apply Z.ltb_lt in HS. right.
    destruct (sync_signal_J st q s false HJ HS) as (o & st1 & q1 & -> & J1 & F1 & S1 & H1).
    destruct (signalled_sem _ _ _ _ _ _ _ _ HS E H1) as (E2 & G1).
    cbn [obind]. eexists. exists st1, q1. split; [reflexivity|].
    split; [auto|]. cbn [semspec]. split; [exact E2|]. split; [auto|].
    split; [intros s' p Hp; apply (signalled_TPR _ _ _ _ _ _ _ R HS H1); exact Hp|].
    split; [intros _; exact (signalled_NL _ _ _ _ _ _ _ _ HJ HS H1)|].
    intros _. exact (signalled_P _ _ _ _ _ _ _ HJ HS F1 S1 H1).
  - (* NotifyAll *)
    destruct (is_sem s) eqn:HS; [|left; reflexivity]. unfold is_sem in HS.
    apply Z.ltb_lt in HS. right.
    destruct (notify_all_J s HS (length (created st)) st q x HJ E (rep_len _ _ s R))
      as (g & st1 & q1 & -> & J1 & F1 & S1 & G1 & E1 & N1 & P1 & T1).
    cbn [obind]. eexists. exists st1, q1. split; [reflexivity|].
    split; [auto|]. cbn [semspec fst snd]. split; [exact E1|].
    split; [rewrite G1, (proj2 (E s HS)); reflexivity|].
    split; [intros s' p Hp; apply T1; exact Hp|].
    split; [intros _; apply N1|]. intros _. exact P1.
  - (* Lock *)
    destruct (is_sem s) eqn:HS; [|left; reflexivity]. right.
    eexists. eexists. exists q. split; [reflexivity|].
    split; [apply J_signals; auto; lia|]. cbn [semspec fst snd].
    split.
    { intros y Hy. destruct (E y Hy) as (E1 & E2). cbn. unfold put.
      destruct (y =? s); cbn; auto. }
    split; [reflexivity|]. split; [intros ? ? []|]. split; [intros _; apply NL_refl|].
    intros _. apply Pr_same; auto.
  - (* WaitAfter *)
    destruct (is_sem s && is_sem s2) eqn:HS; [|left; reflexivity].
    apply andb_true_iff in HS as (HS & HS2). unfold is_sem in HS, HS2.
    apply Z.ltb_lt in HS, HS2.
    assert (J0 : J (set_top st me (Some s)) q) by (apply J_top; auto).
    destruct (sync_signal_J (set_top st me (Some s)) q s2 true J0 HS2)
      as (o & st1 & q1 & -> & J1 & F1 & S1 & H1).
    destruct (signalled_sem _ _ _ _ _ _ _ _ HS2 (E : semeq (set_top st me (Some s)) q x) H1)
      as (E2 & G1).
    cbn [obind].
    assert (PE : forall y, priority (procs (set_top st me (Some s)) y) = priority (procs st y)).
    { intros y. cbn. destruct (y =? me); auto. }
    assert (WA : active st1 = Some (waiter st q me (WaitAfter s s2))).
    { cbn [waiter]. destruct o as [p|]; cbn in H1.
      - destruct H1 as (r & st2 & Eq & _ & _ & _ & SW' & _).
        rewrite Eq. unfold active. rewrite SW', S1. unfold preempts.
        change (active (set_top st me (Some s))) with (active st). rewrite Ea.
        rewrite !PE. destruct (Z.eqb_spec me p) as [<-|N].
        + exfalso. apply (NSm s2 HS2). rewrite Eq; left; auto.
        + cbn [negb andb]. destruct (priority (procs st me) <=? priority (procs st p)); [reflexivity|].
          cbn. rewrite SW. exact Sm.
      - destruct H1 as (Eq & _ & SW' & _). rewrite Eq. unfold active.
        rewrite SW', S1. cbn. rewrite SW. exact Sm. }
    set (w := waiter st q me (WaitAfter s s2)) in *.
    destruct (sync_wait_J st1 q1 _ me w s J1 E2 HS (eq_trans S1 Sm) WA)
      as [->|(b & st3 & q3 & -> & J3 & F3 & E3 & G3 & N3 & T3 & P3)]; [left; reflexivity|].
    right. cbn [obind]. eexists. exists st3, q3. split; [reflexivity|].
    split; [auto|]. fold w. cbn [semspec].
    destruct (spec_signal s2 true x) as [g1 x1]. cbn [fst snd] in *.
    pose proof (G3 me) as G3m.
    destruct (spec_wait w s x1) as [g3 x3]. destruct (spec_wait me s x1) as [g4 x4].
    cbn [fst snd] in *.
    split; [exact E3|]. split; [rewrite G1, G3m; reflexivity|].
    split.
    { intros s' p. rewrite in_app_iff.
      pose proof (signalled_TPR _ _ _ _ _ _ _ (proj1 J0) HS2 H1) as (T1 & T2 & T4).
      intros [Hp|Hp].
      - rewrite T3. destruct (Z.eqb_spec p me) as [->|N].
        + exfalso. destruct o as [p|]; [|contradiction]. destruct Hp as [Hp|[]].
          inversion Hp; subst. destruct H1 as (r & _ & Eq & _).
          apply (NSm s' HS2). rewrite Eq; left; auto.
        + rewrite andb_false_r. apply T4; auto.
      - destruct b; [|contradiction]. destruct Hp as [Hp|[]]. inversion Hp; subst.
        rewrite T3. cbn [negb andb]. rewrite T2 by auto. cbn. rewrite Z.eqb_refl. reflexivity. }
    split; [|discriminate].
    intros _. cbn [exempt]. eapply NL_trans; [|exact N3].
    exact (signalled_NL _ _ _ _ _ _ _ _ J0 HS2 H1).
  - (* Suspend *)
    destruct (is_proc st p) eqn:HP0; [|left; reflexivity]. right.
    destruct (suspend_J st q p R P AC SC) as (st1 & q1 & -> & J1 & S1 & Q1 & N1 & P1); auto.
    { intros l y Hy _. eauto. }
    cbn [obind]. eexists. exists st1, q1. split; [reflexivity|].
    split; [exact J1|]. cbn [semspec fst snd].
    split; [eapply semeq_leave; eauto|]. split; [reflexivity|].
    split; [intros ? ? []|]. split; [intros _; exact N1|]. intros _. exact P1.
  - (* Resume *)
    destruct (is_proc st p) eqn:HP0; [|left; reflexivity]. right.
    apply is_proc_In in HP0.
    destruct (alive (procs st p)) eqn:Al.
    + destruct (resume_J st q p HJ HP0 Al) as (st1 & -> & S1 & E1 & E2 & J1 & Q1).
      cbn [obind]. eexists. exists st1. eexists. split; [reflexivity|].
      split; [exact J1|]. cbn [semspec fst snd].
      split; [eapply semeq_leave; eauto|]. split; [reflexivity|].
      split; [intros ? ? []|]. split.
      * intros _. cbn [exempt]. eapply NL_trans; [|apply NL_qfirst; apply P; auto].
        destruct (preempts st p); [apply NL_qsleep; auto|apply NL_refl].
      * intros _ HP. apply (resume_P st st1); auto. apply Pr_Pex; auto.
    + rewrite (resume_dead st q p R Al) by congruence. cbn [obind].
      eexists. exists st, q. split; [reflexivity|]. split; [exact HJ|].
      cbn [semspec fst snd].
      assert (NP : forall l, ~ In p (q l)).
      { intros l X. apply AL in X. congruence. }
      split.
      { intros y Hy. destruct (E y Hy) as (E1 & E2). cbn. split; auto.
        rewrite <- remove_filter, <- E2. symmetry. apply remove_notin. auto. }
      split; [reflexivity|]. split; [intros ? ? []|].
      split; [intros _; apply NL_refl|]. auto.
  - (* Yield *)
    right. rewrite Ea.
    destruct (yield_J st q me HJ Sm SW) as (st1 & -> & J1 & S1 & _ & _ & Q1 & N1).
    cbn [obind]. eexists. exists st1. eexists. split; [reflexivity|].
    split; [exact J1|]. cbn [semspec fst snd].
    split; [eapply semeq_same; eauto; intros; apply same0_sig; auto|].
    split; [reflexivity|]. split; [intros ? ? []|].
    split; [intros _; apply N1|]. discriminate.
  - (* Terminate *)
    destruct (is_proc st p) eqn:HP0; [|left; reflexivity]. right.
    destruct (suspend_J (set_dead st p) q p) as (st1 & q1 & -> & J1 & S1 & Q1 & N1 & P1); auto.
    { apply rep_dead; auto. }
    { intros y Hy. cbn. destruct (y =? p); cbn; apply P; auto. }
    { intros l y Hy N. cbn. destruct (Z.eqb_spec y p); [congruence|eauto]. }
    { intros a Ha N. cbn. destruct (Z.eqb_spec a p); [congruence|]. apply AAH. exact Ha. }
    cbn [obind]. eexists. exists st1, q1. split; [reflexivity|].
    split; [exact J1|]. cbn [semspec fst snd].
    split; [eapply (semeq_leave (set_dead st p) q); eauto|]. split; [reflexivity|].
    split; [intros ? ? []|]. split; [intros _; exact N1|]. intros _ HP. apply P1.
    eapply Pr_same; [| |exact HP]; [intros y; cbn; destruct (y =? p); auto|reflexivity].
  - (* Priority *)
    destruct (is_proc st p && in_range k) eqn:HP0; [|left; reflexivity]. right.
    apply andb_true_iff in HP0 as (HP0 & HK). apply is_proc_In in HP0.
    apply in_range_iff in HK.
    assert (J0 : J (set_priority st p k) q) by (apply J_prio; auto).
    cbv zeta.
    destruct (oeq_spec (my_list (procs st p)) (Some (priority (procs st p)))) as [M|M].
    + apply (rep_my _ _ R) in M.
      assert (Al : alive (procs (set_priority st p k) p) = true).
      { cbn. rewrite Z.eqb_refl. cbn. eauto. }
      destruct (resume_J _ q p J0 HP0 Al) as (st1 & -> & S1 & E1 & E2 & J1 & Q1).
      cbn [obind]. eexists. exists st1. eexists. split; [reflexivity|].
      split; [exact J1|]. cbn [semspec fst snd].
      split.
      { eapply semeq_same; [exact E| |].
        - intros y. rewrite (same0_sig _ _ y S1). reflexivity.
        - intros y Hy. rewrite Q1 by auto. apply qrem_id. intros X.
          assert (y = priority (procs st p)) by exact (rep_unique _ _ _ _ _ R X M).
          pose proof (P p HP0). lia. }
      split; [reflexivity|]. split; [intros ? ? []|]. split; [|discriminate].
      intros _. cbn [exempt]. destruct J0 as (R0 & P0 & AC0 & _).
      eapply NL_trans; [|apply NL_qfirst; apply P0; auto].
      destruct (preempts _ p); [apply NL_qsleep; auto|apply NL_refl].
    + eexists. eexists. exists q. split; [reflexivity|].
      split; [exact J0|]. cbn [semspec fst snd]. split; [exact E|].
      split; [reflexivity|]. split; [intros ? ? []|].
      split; [intros _; apply NL_refl|]. discriminate.
  - (* Assign *)
    destruct (is_proc st p && in_range k) eqn:HP0; [|left; reflexivity]. right.
    apply andb_true_iff in HP0 as (HP0 & HK). apply in_range_iff in HK.
    eexists. eexists. exists q. split; [reflexivity|].
    split; [apply J_prio; auto|]. cbn [semspec fst snd]. split; [exact E|].
    split; [reflexivity|]. split; [intros ? ? []|].
    split; [intros _; apply NL_refl|]. discriminate.
  - (* New *)
    destruct (negb (is_proc st p) && in_range k) eqn:HP0; [|left; reflexivity]. right.
    apply andb_true_iff in HP0 as (HP0 & HK). apply in_range_iff in HK.
    assert (Np : ~ In p (created st)).
    { intros X. apply is_proc_In in X. rewrite X in HP0. discriminate. }
    eexists. eexists. exists q. split; [reflexivity|].
    split; [exact (J_new st q p k HJ Np HK)|]. cbn [semspec fst snd]. split; [exact E|].
    split; [reflexivity|]. split; [intros ? ? []|].
    split; [intros _; apply NL_refl|].
    intros _ (X & Y & Z). split; [|split].
    + intros j y Hj Hy. cbn. destruct (Z.eqb_spec y p) as [->|]; [|auto].
      exfalso. apply Np. eapply rep_created; eauto.
    + intros a Ha. change (active st = Some a) in Ha. cbn.
      destruct (Z.eqb_spec a p) as [->|]; [exfalso; apply Np; auto|]. apply Y; auto.
    + exact Z.
  - (* Interrupt *)
    destruct (forallb is_sem ss) eqn:HS; [|left; reflexivity]. right.
    destruct (async_signals_J ss st q x HJ E HS)
      as (g & st1 & q1 & E0 & J1 & F1 & S1 & E1 & G1 & N1 & P1 & T1).
    rewrite E0. cbn [obind]. destruct slice; cycle 1.
    + cbn [obind]. exists g, st1, q1. split; [reflexivity|].
      split; [exact J1|]. cbn [semspec]. split; [exact E1|]. split; [exact G1|].
      split; [intros s p Hp; apply T1; auto|]. split; [intros _; apply N1|].
      intros _; exact P1.
    + assert (K1 : K st1 q1) by (apply J_KA in J1; tauto).
      destruct (ayp_K st1 q1 me K1 (eq_trans S1 Sm)) as (o & st2 & q2 & -> & K2 & S2 & Y & SQ).
      cbn [obind]. exists g, st2, q2. split; [reflexivity|].
      split.
      { destruct o as [p|].
        - eapply yielded_J; eauto. discriminate.
        - apply J_KA. split; [exact K2|]. destruct Y as (_ & W & -> & Sc).
          intros a Ha. rewrite (same0_alive _ _ a S2).
          assert (active st1 = Some a).
          { unfold active in *. rewrite W, Sc in Ha.
            destruct (switch_to st1); auto. rewrite S1, Sm.
            destruct (oeq _ _); [exact Ha|discriminate]. }
          destruct J1 as (_ & _ & _ & _ & _ & AA1 & _). auto. }
      cbn [semspec]. split.
      { eapply semeq_same; [exact E1|intros; apply same0_sig; auto|exact SQ]. }
      split; [exact G1|].
      split.
      { intros s p Hp. rewrite (same0_top _ _ p S2). apply T1; auto. }
      split; [|discriminate].
      destruct ss as [|s ss]; [|discriminate]. intros _. cbn [exempt].
      cbn in E0. inversion E0; subst g st1. apply (NL_trans _ _ q1); [apply N1|].
      eapply NL_yielded; [apply J1|apply J1|exact Y|].
      intros p Hp. subst o. destruct Y as (q3 & EH & _).
      destruct (ahigh_facts _ _ _ _ _ (proj1 J1) EH) as (_ & N & _). rewrite Ea. congruence.
Qed.
