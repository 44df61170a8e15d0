(** Every operation keeps the invariants and does to the semaphores what the
    specification says. *)
From Verif Require Import Base Sched SchedLists SchedProofs SchedSpec.
Local Open Scope Z_scope.

Definition semeq (st : vm) (q : Z -> list Z) (x : sstate) : Prop :=
  forall s, nprio < s -> signals (sems st s) = fst x s /\ q s = snd x s.

(** Ready processes stay ready, but for those of [X]. *)
Definition NL (X : Z -> Prop) (q q' : Z -> list Z) : Prop :=
  forall x l, rdy l -> In x (q l) -> ~ X x -> exists l', rdy l' /\ In x (q' l').

Lemma NL_refl X q : NL X q q.
Proof. intros x l; eauto. Qed.
Lemma NL_trans X q q1 q2 : NL X q q1 -> NL X q1 q2 -> NL X q q2.
Proof. intros A B x l Hl H N. destruct (A x l Hl H N) as (l' & Hl' & H'). eauto. Qed.

Lemma NL_qfirst X k p q : rdy k -> NL X q (qfirst k p q).
Proof.
  intros Hk x l Hl H _. destruct (Z.eq_dec x p) as [->|N].
  - exists k. split; auto. apply qfirst_In; auto.
  - exists l. split; auto. apply qfirst_In; auto.
Qed.
Lemma NL_qlast X k p q : rdy k -> NL X q (qlast k p q).
Proof.
  intros Hk x l Hl H _. destruct (Z.eq_dec x p) as [->|N].
  - exists k. split; auto. apply qlast_In; auto.
  - exists l. split; auto. apply qlast_In; auto.
Qed.
Lemma NL_qsleep X st q : prios st -> act_created st -> NL X q (qsleep st q).
Proof.
  intros P AC. unfold qsleep. destruct (active st) as [a|] eqn:E; [|apply NL_refl].
  destruct (my_list (procs st a)); [|apply NL_refl].
  apply NL_qlast. apply P, AC, E.
Qed.
Lemma NL_qrem p q : NL (fun x => x = p) q (qrem p q).
Proof. intros x l Hl H N. exists l. split; auto. apply qrem_In; auto. Qed.

Lemma NL_weaken (X Y : Z -> Prop) q q' : (forall x, X x -> Y x) -> NL X q q' -> NL Y q q'.
Proof. intros I A x l Hl H N. apply (A x l Hl H). auto. Qed.

(** ** Signals *)
Lemma signalled_sem st q x s incr o st' q' :
  nprio < s -> semeq st q x -> signalled st q s incr o st' q' ->
  semeq st' q' (snd (spec_signal s incr x)) /\
  fst (spec_signal s incr x) = match o with Some p => [(s, p)] | None => [] end.
Proof.
  intros Hs E H. destruct o as [p|]; cbn in H.
  - destruct H as (r & st1 & Eq & SQ & SG & _).
    unfold spec_signal. rewrite <- (proj2 (E s Hs)), Eq. split; [|reflexivity].
    intros y Hy. cbn [snd fst]. rewrite SG, SQ by auto. unfold put.
    destruct (E y Hy) as (E1 & E2). rewrite E1, E2. auto.
  - destruct H as (Eq & -> & _ & SG & _).
    unfold spec_signal. rewrite <- (proj2 (E s Hs)), Eq. split; [|reflexivity].
    intros y Hy. cbn [snd fst]. rewrite SG. destruct (E y Hy) as (E1 & E2).
    rewrite E1. split; auto. destruct incr; unfold put; rewrite ?andb_false_r, ?andb_true_r;
      [|lia]. destruct (Z.eqb_spec y s); subst; lia.
Qed.

Lemma signalled_P st q s incr o st' q' :
  J st q -> nprio < s -> frame st st' -> scheduled st' = scheduled st ->
  signalled st q s incr o st' q' -> Pr st q -> Pr st' q'.
Proof.
  intros HJ Hs F SC H HP. pose proof HJ as (R & P & AC & _ & AL & AA & _).
  destruct o as [p|]; cbn in H.
  - destruct H as (r & st1 & Eq & SQ & SG & TP & SW & S1 & R1 & M1 & ->).
    assert (Inp : In p (q s)) by (rewrite Eq; left; auto).
    assert (Cp : In p (created st)) by (eapply rep_created; eauto).
    pose proof (same_0 _ _ S1) as S10.
    rewrite <- (preempts_same _ _ p S1). rewrite <- (same0_prio _ _ p S10).
    assert (PE : Pex p st1 (qrem p q)).
    { apply (Pr_Pex p) in HP. destruct HP as (A & B & C). split; [|split].
      - intros k x Hk. rewrite qrem_In, (same0_prio _ _ x S10). intros (X & _). eauto.
      - intros a. rewrite (same_active _ _ S1), (same0_prio _ _ a S10). intros Ha.
        destruct (B a Ha) as (B1 & B2). split.
        + intros N. apply qrem_In. auto.
        + intros k x Hk. rewrite qrem_In. intros (X & _). eauto.
      - rewrite (same_active _ _ S1). intros N k x Hk. rewrite qrem_In. intros (X & _). eauto. }
    assert (G : forall st2, same0 st1 st2 -> scheduled st2 = scheduled st1 ->
       switch_to st2 = (if preempts st1 p then Some p else switch_to st1) ->
       Pr st2 (qfirst (priority (procs st1 p)) p
            (if preempts st1 p then qsleep st1 (qrem p q) else qrem p q))).
    { intros st2 A B C. apply (resume_P st1); auto.
      - eapply prios_same0; eauto.
      - intros a. rewrite (same_active _ _ S1), (same_created _ _ S1). apply AC.
      - rewrite (same_created _ _ S1). exact Cp. }
    (* the marker on the stack does not matter *)
    destruct (G (set_switch st1 (if preempts st1 p then Some p else switch_to st1)))
      as (X & Y & Z0); [exact (same0_refl st1)|reflexivity|reflexivity|].
    assert (AE : active st' = active
        (set_switch st1 (if preempts st1 p then Some p else switch_to st1))).
    { unfold active. cbn. rewrite SC, SW, (same_sched _ _ S1).
      rewrite (preempts_same _ _ p S1), (same_switch _ _ S1). reflexivity. }
    assert (PP : forall y, priority (procs st' y) = priority (procs st1 y)).
    { intros y. destruct F as (F & _). destruct (F y) as (-> & _).
      symmetry. apply same0_prio; auto. }
    split; [|split].
    + intros k y Hk Hy. rewrite PP. apply X; auto.
    + intros a. rewrite AE, PP. apply Y.
    + rewrite AE. exact Z0.
  - destruct H as (Eq & -> & SW & SG & _).
    assert (AE : active st' = active st) by (unfold active; rewrite SC, SW; reflexivity).
    destruct F as (F & _). destruct HP as (X & Y & Z0).
    split; [|split].
    + intros k y Hk Hy. destruct (F y) as (-> & _). auto.
    + intros a. rewrite AE. destruct (F a) as (-> & _). auto.
    + rewrite AE. auto.
Qed.

Lemma signalled_NL X st q s incr o st' q' :
  J st q -> nprio < s -> signalled st q s incr o st' q' -> NL X q q'.
Proof.
  intros (R & P & AC & _ & AL & AA & _) Hs H.
  destruct o as [p|]; cbn in H.
  - destruct H as (r & st1 & Eq & SQ & SG & TP & SW & S1 & R1 & M1 & ->).
    assert (Inp : In p (q s)) by (rewrite Eq; left; auto).
    assert (Cp : In p (created st)) by (eapply rep_created; eauto).
    apply NL_trans with (q1 := qrem p q).
    + intros x l Hl Hx _. exists l. split; auto. apply qrem_In. split; auto.
      intros ->. assert (l = s) by exact (rep_unique _ _ _ _ _ R Hx Inp). destruct Hl; lia.
    + apply NL_trans with
        (q1 := if preempts st p then qsleep st1 (qrem p q) else qrem p q).
      * destruct (preempts st p); [|apply NL_refl]. apply NL_qsleep.
        -- eapply prios_same0; [apply same_0; eauto|auto].
        -- intros a. rewrite (same_active _ _ S1), (same_created _ _ S1). apply AC.
      * apply NL_qfirst. apply P; auto.
  - destruct H as (_ & -> & _). apply NL_refl.
Qed.

(** The processes woken up by signals are in no semaphore, and have the semaphore
    that woke them up as the answer of their wait. *)
Definition TPR (st : vm) (q : Z -> list Z) (g : list grant) (st' : vm) (q' : Z -> list Z) : Prop :=
  (forall s x, nprio < s -> In x (q' s) -> In x (q s)) /\
  (forall p, (forall s, nprio < s -> ~ In p (q s)) -> top (procs st' p) = top (procs st p)) /\
  (forall s p, In (s, p) g -> top (procs st' p) = Some s /\
     forall s', nprio < s' -> ~ In p (q' s')).

Lemma TPR_refl st q : TPR st q [] st q.
Proof. split; [auto|]. split; [auto|]. intros s p []. Qed.

Lemma TPR_trans st q g st1 q1 g' st2 q2 :
  TPR st q g st1 q1 -> TPR st1 q1 g' st2 q2 -> TPR st q (g ++ g') st2 q2.
Proof.
  intros (A1 & A2 & A3) (B1 & B2 & B3). split; [eauto|]. split.
  - intros p Hp. rewrite B2; auto. intros s Hs X. eapply Hp; eauto.
  - intros s p. rewrite in_app_iff. intros [X|X]; [|apply B3; auto].
    destruct (A3 _ _ X) as (T & N). rewrite B2 by auto. split; auto.
    intros s' Hs' Y. eapply N; eauto.
Qed.

Lemma signalled_TPR st q s incr o st' q' :
  rep st q -> nprio < s -> signalled st q s incr o st' q' ->
  TPR st q (match o with Some p => [(s, p)] | None => [] end) st' q'.
Proof.
  intros R Hs H. destruct o as [p|]; cbn in H.
  - destruct H as (r & st1 & Eq & SQ & SG & TP & SW & S1 & R1 & M1 & E').
    assert (Inp : In p (q s)) by (rewrite Eq; left; auto).
    split; [|split].
    + intros y x Hy. rewrite SQ by auto. destruct (Z.eqb_spec y s) as [->|]; auto.
      rewrite Eq. right; auto.
    + intros x Hx. rewrite TP. destruct (Z.eqb_spec x p) as [->|]; auto.
      exfalso. eapply Hx; eauto.
    + intros y x [X|[]]. inversion X; subst y x. rewrite TP, Z.eqb_refl.
      split; auto. intros s' Hs'. rewrite SQ by auto.
      destruct (Z.eqb_spec s' s) as [->|N].
      * pose proof (rep_ND _ _ R s) as ND. rewrite Eq in ND. inversion ND; auto.
      * intros X'. apply N. exact (rep_unique _ _ _ _ _ R X' Inp).
  - destruct H as (_ & -> & _ & _ & TP & _).
    split; [auto|]. split; [auto|]. intros ? ? [].
Qed.

Lemma async_signals_J ss : forall st q x,
  J st q -> semeq st q x -> forallb is_sem ss = true ->
  exists g st' q', async_signals st ss = Ok (g, st') /\ J st' q' /\ frame st st' /\
    scheduled st' = scheduled st /\
    semeq st' q' (snd (spec_signals ss x)) /\ g = fst (spec_signals ss x) /\
    (forall X, NL X q q') /\ (Pr st q -> Pr st' q') /\ TPR st q g st' q'.
Proof.
  induction ss as [|s ss IH]; intros st q x HJ E HS.
  - exists [], st, q. cbn. split; [reflexivity|]. split; [auto|]. split; [apply frame_refl|].
    split; auto. split; auto. split; auto. split; [|split; [auto|apply TPR_refl]].
    intros X; apply NL_refl.
  - cbn [forallb] in HS. apply andb_true_iff in HS as (H1 & HS).
    unfold is_sem in H1. apply Z.ltb_lt in H1.
    destruct (sync_signal_J st q s true HJ H1) as (o & st1 & q1 & E1 & J1 & F1 & S1 & SG).
    destruct (signalled_sem _ _ _ _ _ _ _ _ H1 E SG) as (E2 & G1).
    destruct (IH st1 q1 _ J1 E2 HS) as (g2 & st2 & q2 & E3 & J2 & F2 & S2 & E4 & G2 & N2 & P2 & T2).
    cbn [async_signals spec_signals]. rewrite E1. cbn [obind]. rewrite E3. cbn [obind].
    eexists. exists st2, q2. split; [reflexivity|]. split; [auto|].
    split; [eapply frame_trans; eauto|]. split; [congruence|].
    destruct (spec_signal s true x) as [g1 x1]. cbn [fst snd] in *.
    destruct (spec_signals ss x1) as [g3 x3]. cbn [fst snd] in *.
    split; [exact E4|]. split; [rewrite G1, G2; reflexivity|]. split; [|split].
    + intros X. eapply NL_trans; [|apply N2]. eapply signalled_NL; eauto.
    + intros HP. apply P2. exact (signalled_P _ _ _ _ _ _ _ HJ H1 F1 S1 SG HP).
    + eapply TPR_trans; [|exact T2]. eapply signalled_TPR; eauto. apply HJ.
Qed.

Lemma notify_all_J s : nprio < s -> forall fuel st q x,
  J st q -> semeq st q x -> (length (q s) <= fuel)%nat ->
  exists g st' q', notify_all fuel st s = Ok (g, st') /\ J st' q' /\ frame st st' /\
    scheduled st' = scheduled st /\
    g = q s /\ semeq st' q' (fst x, put (snd x) s []) /\
    (forall X, NL X q q') /\ (Pr st q -> Pr st' q') /\
    TPR st q (map (fun p => (s, p)) g) st' q'.
Proof.
  intros Hs. induction fuel as [|fuel IH]; intros st q x HJ E L; cbn [notify_all];
    destruct (sync_signal_J st q s false HJ Hs) as (o & st1 & q1 & E1 & J1 & F1 & S1 & SG);
    destruct (signalled_sem _ _ _ _ _ _ _ _ Hs E SG) as (E2 & G1);
    rewrite E1; cbn [obind].
  - destruct o as [p|].
    + exfalso. destruct SG as (r & st2 & Eq & _). rewrite Eq in L. cbn in L. lia.
    + exists [], st1, q1. split; [reflexivity|]. split; [auto|]. split; auto. split; auto.
      pose proof SG as (Eq & -> & _). split; auto. split.
      * intros y Hy. specialize (E2 y Hy). unfold spec_signal in E2.
        rewrite <- (proj2 (E s Hs)), Eq in E2. cbn in *. unfold put.
        destruct (Z.eqb_spec y s) as [->|]; auto. destruct E2; auto.
      * split; [intros X; apply NL_refl|].
        split; [exact (signalled_P _ _ _ _ _ _ _ HJ Hs F1 S1 SG)|].
        exact (signalled_TPR _ _ _ _ _ _ _ (proj1 HJ) Hs SG).
  - destruct o as [p|].
    + pose proof SG as (r & st2 & Eq & SQ & _).
      assert (Eq1 : q1 s = r) by (rewrite SQ, Z.eqb_refl by auto; reflexivity).
      destruct (IH st1 q1 (snd (spec_signal s false x)) J1 E2) as
        (g2 & st3 & q3 & E3 & J2 & F2 & S2 & G2 & E4 & N2 & P2 & T2).
      { rewrite Eq1. rewrite Eq in L. cbn in L. lia. }
      rewrite E3. cbn [obind]. eexists. exists st3, q3. split; [reflexivity|].
      split; [auto|]. split; [eapply frame_trans; eauto|]. split; [congruence|].
      split; [rewrite Eq, G2, Eq1; reflexivity|].
      split.
      { unfold spec_signal in E4. rewrite <- (proj2 (E s Hs)), Eq in E4. cbn in E4.
        intros y Hy. specialize (E4 y Hy). cbn in *. unfold put in *.
        destruct (y =? s); exact E4. }
      split; [|split].
      * intros X. eapply NL_trans; [|apply N2]. eapply signalled_NL; eauto.
      * intros HP. apply P2. exact (signalled_P _ _ _ _ _ _ _ HJ Hs F1 S1 SG HP).
      * exact (TPR_trans _ _ _ _ _ _ _ _ (signalled_TPR _ _ _ _ _ _ _ (proj1 HJ) Hs SG) T2).
    + exists [], st1, q1. split; [reflexivity|]. split; [auto|]. split; auto. split; auto.
      pose proof SG as (Eq & -> & _). split; auto. split.
      * intros y Hy. specialize (E2 y Hy). unfold spec_signal in E2.
        rewrite <- (proj2 (E s Hs)), Eq in E2. cbn in *. unfold put.
        destruct (Z.eqb_spec y s) as [->|]; auto. destruct E2; auto.
      * split; [intros X; apply NL_refl|].
        split; [exact (signalled_P _ _ _ _ _ _ _ HJ Hs F1 S1 SG)|].
        exact (signalled_TPR _ _ _ _ _ _ _ (proj1 HJ) Hs SG).
Qed.

Lemma K_same1 st st' q q' :
  K st q -> same0 st st' -> rep st' q' ->
  (forall x l, In x (q' l) -> alive (procs st x) = true) ->
  (forall s, nprio < s -> 0 < signals (sems st s) -> q s = [] -> q' s = []) ->
  (forall a, scheduled st' = Some a -> In a (created st)) ->
  (forall a, switch_to st' = Some a -> In a (created st)) ->
  K st' q'.
Proof.
  intros (R & P & AC & SC & AL & SG & SE) S0 R' H1 H2 H3 H4.
  split; [exact R'|]. split; [eapply prios_same0; eauto|].
  split; [|split; [|split; [|split]]].
  - intros a. unfold active. rewrite (same0_created _ _ S0).
    destruct (switch_to st') eqn:E; intros X; [inversion X; subst; auto|auto].
  - intros a. rewrite (same0_created _ _ S0). auto.
  - intros l x X. rewrite (same0_alive _ _ x S0). eauto.
  - intros s. rewrite (same0_sig _ _ s S0). auto.
  - intros s Hs. rewrite (same0_sig _ _ s S0). auto.
Qed.

Lemma switch_created st b : act_created st -> switch_to st = Some b -> In b (created st).
Proof. intros AC H. apply AC. unfold active. rewrite H. reflexivity. Qed.

Lemma yielded_J st q a o st' q' :
  K st' q' -> same0 st st' -> yielded st q a o st' q' ->
  (forall s, nprio < s -> q' s = q s) -> o <> None -> J st' q'.
Proof.
  intros HK S0 Y SQ N. apply J_KA. split; [exact HK|].
  destruct o as [p|]; [|congruence]. destruct Y as (q1 & _ & W & _ & _ & Ap & NP & _).
  intros b Hb. unfold active in Hb. rewrite W in Hb. inversion Hb; subst b.
  rewrite (same0_alive _ _ p S0). split; auto. intros s Hs. rewrite SQ by auto. auto.
Qed.

Lemma NL_yielded st q a o st' q' :
  rep st q -> prios st -> yielded st q a o st' q' ->
  (forall p, o = Some p -> active st <> Some p) -> forall X, NL X q q'.
Proof.
  intros R P Y NA X. destruct o as [p|]; cbn in Y.
  - destruct Y as (q1 & EH & W & _ & Cp & _ & NP & ->).
    destruct (ahigh_facts _ _ _ _ _ R EH) as (_ & _ & I1 & _).
    destruct (oeq_spec (active st) (Some p)) as [E|_]; [exfalso; eapply NA; eauto|].
    intros x l Hl Hx _. destruct (Z.eq_dec x p) as [->|N].
    + exists (priority (procs st p)). split; [apply P; auto|apply qfirst_In; auto].
    + exists l. split; auto. apply qfirst_In. right. rewrite I1. auto.
  - destruct Y as (_ & _ & -> & _). apply NL_refl.
Qed.

Lemma sync_wait_J st q x me w s :
  J st q -> semeq st q x -> nprio < s -> scheduled st = Some me -> active st = Some w ->
  sync_wait st me s = Err \/
  exists b st' q', sync_wait st me s = Ok (b, st') /\ J st' q' /\ frame st st' /\
    semeq st' q' (snd (spec_wait w s x)) /\
    (forall v, fst (spec_wait v s x) = if b : bool then [(s, v)] else []) /\
    NL (fun y => y = w) q q' /\
    (forall p, top (procs st' p) = if negb b && (p =? me) then None else top (procs st p)) /\
    (switch_to st = None -> Pr st q -> Pr st' q').
Proof.
  intros HJ E Hs Sm Aw. pose proof HJ as (R & P & AC & SC & AL & AAH & SG & SE).
  unfold sync_wait. destruct (Z.leb_spec (signals (sems st s)) 0) as [L|L].
  2:{ right. exists true. eexists. exists q. split; [reflexivity|].
      split; [apply J_signals; auto; lia|].
      split; [exact (frame_refl st)|].
      unfold spec_wait. destruct (E s Hs) as (E1 & E2). rewrite <- E1.
      destruct (Z.ltb_spec 0 (signals (sems st s))); [|lia].
      split; [|split; [auto|split; [apply NL_refl|split; [auto|]]]].
      - intros y Hy. cbn. unfold put. destruct (Z.eqb_spec y s) as [->|]; cbn; auto.
      - auto. }
  rewrite Aw.
  set (st0 := set_top st me None).
  assert (J0 : J st0 q) by (apply J_top; exact HJ).
  assert (Cw : In w (created st)) by auto.
  destruct (remove_from_list_rep st0 q w (proj1 J0)) as (st1 & -> & S1 & R1 & M1).
  cbn [obind].
  assert (Cw1 : In w (created st1)) by (rewrite (same_created _ _ S1); exact Cw).
  destruct (add_last_link_rep st1 _ s w R1 Cw1) as (st2 & -> & S2 & R2 & M2).
  cbn [obind].
  pose proof (same_trans _ _ _ S1 S2) as S02.
  destruct (AAH w Aw) as (Alw & NSw).
  set (q2 := qlast s w (qrem w q)) in *.
  assert (Q2 : forall y, nprio < y -> q2 y = if y =? s then q s ++ [w] else q y).
  { intros y Hy. unfold q2, qlast, qset. destruct (Z.eqb_spec y s) as [->|].
    - rewrite qrem_twice, qrem_id; auto.
    - rewrite qrem_twice, qrem_id; auto. }
  assert (I2 : forall y l, In y (q2 l) <-> (y = w /\ l = s) \/ (y <> w /\ In y (q l))).
  { intros y l. unfold q2. rewrite qlast_In, qrem_In. tauto. }
  assert (K2 : K st2 q2).
  { apply (K_same1 st0 st2 q q2); auto.
    - apply J_KA in J0. tauto.
    - apply same_0; auto.
    - intros y l. rewrite I2. intros [(-> & _)|(_ & X)].
      + cbn. destruct (w =? me); auto.
      + destruct J0 as (_ & _ & _ & _ & AL0 & _). eauto.
    - intros y Hy. intros Sy Ey. rewrite Q2 by auto.
      destruct (Z.eqb_spec y s) as [->|]; auto. cbn in Sy. lia.
    - rewrite (same_sched _ _ S02). apply SC.
    - rewrite (same_switch _ _ S02). intros b Hb. apply (switch_created st b AC Hb). }
  destruct (ayp_K st2 q2 me K2) as (o & st3 & q3 & -> & K3 & S3 & Y & SQ3).
  { rewrite (same_sched _ _ S02). exact Sm. }
  cbn [obind].
  destruct o as [p|]; [|left; reflexivity].
  right. exists false, st3, q3. split; [reflexivity|].
  assert (J3 : J st3 q3) by (eapply yielded_J; eauto; discriminate).
  split; [exact J3|].
  split.
  { eapply frame_trans; [|apply frame_same0; exact S3].
    eapply frame_trans; [|apply frame_same0; apply same_0; exact S02].
    split; auto. intros y. cbn. destruct (y =? me); auto. }
  split.
  { intros y Hy. rewrite (same0_sig _ _ y S3), (same0_sig _ _ y (same_0 _ _ S02)).
    rewrite SQ3, Q2 by auto. destruct (E y Hy) as (E1 & E2). cbn.
    unfold spec_wait. rewrite <- (proj1 (E s Hs)).
    destruct (Z.ltb_spec 0 (signals (sems st s))); [lia|]. cbn. split; auto.
    unfold put. destruct (Z.eqb_spec y s) as [->|]; auto.
    rewrite E2. reflexivity. }
  split.
  { intros v. unfold spec_wait. rewrite <- (proj1 (E s Hs)).
    destruct (Z.ltb_spec 0 (signals (sems st s))); [lia|]. reflexivity. }
  pose proof Y as (q1 & EH & W & _ & Cp & _ & NP & _).
  assert (Np : p <> w).
  { intros ->. apply (NP s Hs). rewrite I2. auto. }
  assert (A2 : active st2 = Some w) by (rewrite (same_active _ _ S02); exact Aw).
  split.
  { apply NL_trans with (q1 := q2).
    - intros y l Hl Hy N. exists l. split; auto. rewrite I2. auto.
    - eapply NL_yielded; [exact R2| |exact Y|].
      + apply K2.
      + intros p' Hp'. inversion Hp'; subst p'. rewrite A2. congruence. }
  split.
  { intros y. rewrite (same0_top _ _ y S3), (same0_top _ _ y (same_0 _ _ S02)). cbn.
    destruct (y =? me); auto. }
  intros SW HP.
  assert (w = me).
  { unfold active in Aw. rewrite SW in Aw. congruence. }
  subst w.
  apply (ayp_P st2 st3 q2 q3 me (Some p)); auto.
  - apply K2.
  - rewrite (same_switch _ _ S02). exact SW.
  - rewrite (same_sched _ _ S02). exact Sm.
  - intros k (Hk1 & Hk2) X. apply I2 in X as [(_ & ->)|(X & _)]; [lia|congruence].
  - intros k y Hk X. apply I2 in X as [(-> & ->)|(_ & X)].
    + destruct Hk. lia.
    + rewrite (same0_prio _ _ y (same_0 _ _ S02)). cbn.
      destruct HP as (HP & _). rewrite <- (HP k y Hk X). destruct (y =? me); reflexivity.
Qed.

Lemma suspend_J st q p :
  rep st q -> prios st -> act_created st ->
  (forall a, scheduled st = Some a -> In a (created st)) ->
  (forall l x, In x (q l) -> x <> p -> alive (procs st x) = true) ->
  (forall a, active st = Some a -> a <> p ->
     alive (procs st a) = true /\ forall s, nprio < s -> ~ In a (q s)) ->
  (forall s, 0 <= signals (sems st s)) ->
  (forall s, nprio < s -> 0 < signals (sems st s) -> q s = []) ->
  switch_to st = None ->
  exists st' q', suspend_process st p = Ok st' /\ J st' q' /\ same0 st st' /\
    (forall s, nprio < s -> q' s = qrem p q s) /\
    NL (fun y => y = p) q q' /\
    (Pr st q -> Pr st' q').
Proof.
  intros R P AC SC AL AAH SG SE SW. unfold suspend_process.
  destruct (remove_from_list_rep st q p R) as (st1 & -> & S1 & R1 & M1).
  cbn [obind]. pose proof (same_0 _ _ S1) as S10.
  assert (K1 : K st1 (qrem p q)).
  { split; [exact R1|]. split; [eapply prios_same0; eauto|].
    split; [intros a; rewrite (same_active _ _ S1), (same_created _ _ S1); apply AC|].
    split; [intros a; rewrite (same_sched _ _ S1), (same_created _ _ S1); apply SC|].
    split.
    { intros l x. rewrite qrem_In, (same0_alive _ _ x S10). intros (X & N). eauto. }
    split; [intros s; rewrite (same0_sig _ _ s S10); auto|].
    intros s Hs. rewrite (same0_sig _ _ s S10). intros X. unfold qrem. rewrite SE; auto. }
  destruct (oeq_spec (scheduled st1) (Some p)) as [Es|Es].
  - destruct (ayp_K st1 _ p K1 Es) as (o & st2 & q2 & -> & K2 & S2 & Y & SQ).
    cbn [obind]. exists st2, q2. split; [reflexivity|].
    assert (SW1 : switch_to st1 = None) by (rewrite (same_switch _ _ S1); auto).
    assert (A1 : active st1 = Some p) by (unfold active; rewrite SW1; auto).
    split.
    { destruct o as [x|].
      - eapply yielded_J; eauto. discriminate.
      - apply J_KA. split; [exact K2|]. intros b Hb. exfalso.
        destruct Y as (_ & W & _ & Sc). unfold active in Hb. rewrite W, SW1, Sc, M1 in Hb.
        discriminate. }
    split; [eapply same0_trans; eauto|]. split; [exact SQ|].
    split.
    { eapply NL_trans; [apply NL_qrem|]. eapply NL_yielded; [exact R1|apply K1|exact Y|].
      intros x Hx. subst o. destruct Y as (q3 & EH & _).
      destruct (ahigh_facts _ _ _ _ _ R1 EH) as (_ & N & _). rewrite A1. congruence. }
    intros HP. apply (ayp_P st1 st2 (qrem p q) q2 p o); auto.
    + apply K1.
    + intros k Hk. apply qrem_notin.
    + intros k x Hk. rewrite qrem_In, (same0_prio _ _ x S10). intros (X & _). apply HP; auto.
  - exists st1, (qrem p q). split; [reflexivity|].
    assert (Np : forall a, active st1 = Some a -> a <> p).
    { intros a. unfold active. rewrite (same_switch _ _ S1), SW. congruence. }
    split.
    { apply J_KA. split; [exact K1|]. intros a Ha. pose proof (Np a Ha) as N.
      rewrite (same_active _ _ S1) in Ha. rewrite (same0_alive _ _ a S10).
      destruct (AAH a Ha N) as (X & Y). split; auto. intros s Hs. rewrite qrem_In.
      intros (Z & _). eapply Y; eauto. }
    split; [exact S10|]. split; [auto|]. split; [apply NL_qrem|].
    intros (X & Y & Z). split; [|split].
    + intros k x Hk. rewrite qrem_In, (same0_prio _ _ x S10). intros (H & _). auto.
    + intros a Ha. pose proof (Np a Ha) as N. rewrite (same_active _ _ S1) in Ha.
      rewrite (same0_prio _ _ a S10). destruct (Y a Ha) as (Y1 & Y2). split.
      * apply qrem_In. auto.
      * intros k x Hk. rewrite qrem_In. intros (H & _). eauto.
    + rewrite (same_active _ _ S1). intros N k x Hk. rewrite qrem_In. intros (H & _).
      eapply Z; eauto.
Qed.

(** Processor yield. *)
Definition qyield (st : vm) (q : Z -> list Z) (a : Z) : option Z * (Z -> list Z) :=
  let '(o, q1) := ahigh (Z.to_nat nprio) (Some a) q in
  let q2 := if oeq (my_list (procs st a)) (Some (priority (procs st a)))
            then qlast (priority (procs st a)) a q1 else q1 in
  (o, match o with None => q2 | Some p => qfirst (priority (procs st p)) p q2 end).

Lemma yield_J st q a :
  J st q -> scheduled st = Some a -> switch_to st = None ->
  exists st', active_process_yield st a = Ok st' /\ J st' (snd (qyield st q a)) /\
    same0 st st' /\
    scheduled st' = scheduled st /\
    switch_to st' = Some (match fst (qyield st q a) with None => a | Some p => p end) /\
    (forall s, nprio < s -> snd (qyield st q a) s = q s) /\
    (forall X, NL X q (snd (qyield st q a))).
Proof.
  intros HJ Es SW. pose proof HJ as (R & P & AC & SC & AL & AAH & SG & SE).
  assert (Ea : active st = Some a) by (unfold active; rewrite SW; auto).
  unfold active_process_yield, highest_priority_process, qyield.
  destruct (highest_from_rep (Z.to_nat nprio) st q R) as (st1 & -> & S1 & R1).
  rewrite Es in R1 |- *. cbn [obind].
  pose proof (same_0 _ _ S1) as S10.
  assert (Ca : In a (created st)) by auto.
  assert (Ca1 : In a (created st1)) by (rewrite (same_created _ _ S1); auto).
  rewrite (is_ready_ok st1 a (prios_same0 _ _ S10 P) Ca1). cbn [obind].
  destruct (ahigh (Z.to_nat nprio) (Some a) q) as [o q1] eqn:EH. cbn [fst snd] in *.
  assert (F1 : (forall l, In a (q1 l) <-> In a (q l)) /\
               (forall x l, In x (q1 l) -> In x (q l)) /\
               (forall s, nprio < s -> q1 s = q s)).
  { destruct o as [p|].
    - destruct (ahigh_facts _ _ _ _ _ R EH) as (_ & Nap & I1 & SQ).
      split; [|split].
      + intros l. rewrite I1. tauto.
      + intros x l. rewrite I1. tauto.
      + intros s Hs. apply SQ; auto.
    - apply ahigh_none in EH as (-> & _). split; [|split]; auto. tauto. }
  destruct F1 as (FA & FI & FS).
  assert (ME : my_list (procs st1 a) = my_list (procs st a)).
  { pose proof (rep_my _ _ R) as M. pose proof (rep_my _ _ R1) as M1.
    destruct (my_list (procs st a)) as [l|] eqn:E.
    - apply M1, FA, M. exact E.
    - destruct (my_list (procs st1 a)) as [l|] eqn:E'; auto.
      apply M1, FA, M in E'. congruence. }
  rewrite ME, (same0_prio _ _ a S10).
  pose proof (P a Ca) as Pa. destruct (AAH a Ea) as (Ala & NSa).
  set (q2 := if oeq (my_list (procs st a)) (Some (priority (procs st a)))
             then qlast (priority (procs st a)) a q1 else q1).
  assert (exists st2, (if oeq (my_list (procs st a)) (Some (priority (procs st a)))
             then sleep st1 a else Ok st1) = Ok st2 /\ same st1 st2 /\ rep st2 q2)
    as (st2 & -> & S2 & R2).
  { unfold q2. destruct (oeq _ _).
    - destruct (sleep_rep st1 q1 a R1 (prios_same0 _ _ S10 P) Ca1) as (st2 & -> & X & Y).
      rewrite (same0_prio _ _ a S10) in Y. eauto.
    - exists st1. split; auto. split; auto. apply same_refl. }
  cbn [obind].
  pose proof (same_trans _ _ _ S1 S2) as SS. pose proof (same_0 _ _ SS) as SS0.
  assert (Q2I : forall x l, In x (q2 l) <-> In x (q1 l)).
  { intros x l. unfold q2.
    destruct (oeq_spec (my_list (procs st a)) (Some (priority (procs st a)))) as [E|E]; [|tauto].
    apply (rep_my _ _ R) in E. apply FA in E.
    rewrite qlast_In. split.
    - intros [(-> & ->)|(_ & X)]; auto.
    - intros X. destruct (Z.eq_dec x a) as [->|]; auto. left. split; auto.
      exact (rep_UN _ _ R1 _ _ _ X E). }
  assert (Q2S : forall s, nprio < s -> q2 s = q s).
  { intros s Hs. unfold q2. destruct (oeq _ _); [|auto].
    rewrite qlast_other by lia. rewrite qrem_id; auto. rewrite FS by auto. auto. }
  set (b := match o with None => a | Some p => p end).
  assert (Cb : In b (created st2)).
  { rewrite (same_created _ _ SS). unfold b. destruct o as [p|]; auto.
    destruct (ahigh_facts _ _ _ _ _ R EH) as ((l & _ & X) & _). eapply rep_created; eauto. }
  destruct (activate_rep st2 q2 b R2 (prios_same0 _ _ SS0 P) Cb)
    as (st3 & -> & S3 & E1 & E2 & R3).
  exists st3. split; [reflexivity|].
  assert (RQ : rep st3 match o with Some p => qfirst (priority (procs st p)) p q2 | None => q2 end).
  { rewrite (same_active _ _ SS), Ea in R3. unfold b in *. destruct o as [p|].
    - destruct (ahigh_facts _ _ _ _ _ R EH) as (_ & Nap & _).
      cbn [oeq] in R3. destruct (Z.eqb_spec a p); [congruence|].
      rewrite (same0_prio _ _ p SS0) in R3. exact R3.
    - cbn [oeq] in R3. rewrite Z.eqb_refl in R3. exact R3. }
  assert (S03 : same0 st st3) by (eapply same0_trans; eauto).
  assert (SQ : forall s, nprio < s ->
     match o with Some p => qfirst (priority (procs st p)) p q2 | None => q2 end s = q s).
  { intros s Hs. destruct o as [p|]; [|auto].
    destruct (ahigh_facts _ _ _ _ _ R EH) as ((l & Ll & Lp) & Nap & I1 & SQ).
    assert (Cp : In p (created st)) by (eapply rep_created; eauto).
    pose proof (P p Cp). rewrite qfirst_other by lia.
    rewrite qrem_id; [auto|]. rewrite Q2S by auto. apply SQ; auto. }
  assert (Qin : forall x l,
     In x (match o with Some p => qfirst (priority (procs st p)) p q2 | None => q2 end l) ->
     exists l', In x (q l')).
  { intros x l. destruct o as [p|].
    - destruct (ahigh_facts _ _ _ _ _ R EH) as ((l1 & Ll & Lp) & _).
      rewrite qfirst_In, Q2I. intros [(-> & _)|(_ & X)]; eauto.
    - rewrite Q2I. eauto. }
  split.
  { apply J_KA. split.
    - eapply (K_same0 st st3 q); auto.
      + apply J_KA in HJ; tauto.
      + intros s Hs X. rewrite SQ; auto.
      + rewrite E1, (same_sched _ _ SS). apply SC.
      + rewrite E2. intros x X; inversion X; subst x.
        rewrite <- (same_created _ _ SS). exact Cb.
    - intros x Hx. unfold active in Hx. rewrite E2 in Hx. inversion Hx; subst x.
      rewrite (same0_alive _ _ b S03). unfold b. destruct o as [p|].
      + destruct (ahigh_facts _ _ _ _ _ R EH) as ((l1 & Ll & Lp) & _ & _ & NS).
        split; [eapply AL; eauto|]. intros s Hs. rewrite SQ by auto. apply NS; auto.
      + split; auto. intros s Hs. rewrite SQ by auto. auto. }
  split; [exact S03|]. split; [rewrite E1, (same_sched _ _ SS); congruence|].
  split; [exact E2|]. split; [exact SQ|].
  intros X x l Hl Hx _. destruct o as [p|].
  - destruct (ahigh_facts _ _ _ _ _ R EH) as ((l1 & Ll & Lp) & _ & I1 & _).
    destruct (Z.eq_dec x p) as [->|N].
    + exists (priority (procs st p)). split; [apply P; eapply rep_created; eauto|].
      apply qfirst_In; auto.
    + exists l. split; auto. apply qfirst_In. right. rewrite Q2I, I1. auto.
  - exists l. split; auto. rewrite Q2I. apply ahigh_none in EH as (-> & _). exact Hx.
Qed.
