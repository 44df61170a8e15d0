(** The functions of the scheduler, described by their effect on the queues. *)
From Verif Require Import Base Sched SchedLists.
Local Open Scope Z_scope.

Definition same0 (a b : vm) : Prop :=
  (forall p, priority (procs b p) = priority (procs a p) /\
             alive (procs b p) = alive (procs a p) /\
             top (procs b p) = top (procs a p)) /\
  (forall s, signals (sems b s) = signals (sems a s)) /\
  created b = created a.

Lemma same_same0 a b :
  same a b <-> same0 a b /\ scheduled b = scheduled a /\ switch_to b = switch_to a.
Proof. unfold same, same0. tauto. Qed.

Lemma same0_refl a : same0 a a.
Proof. unfold same0; intuition. Qed.

Lemma same0_trans a b c : same0 a b -> same0 b c -> same0 a c.
Proof.
  intros (A1 & A2 & A3) (B1 & B2 & B3).
  split; [|split]; [| |congruence].
  - intros p. destruct (A1 p) as (x & y & z), (B1 p) as (x' & y' & z').
    rewrite x', y', z'; auto.
  - intros s. rewrite B2; auto.
Qed.

Lemma same_0 a b : same a b -> same0 a b.
Proof. rewrite same_same0; tauto. Qed.
Lemma same_sched a b : same a b -> scheduled b = scheduled a.
Proof. rewrite same_same0; tauto. Qed.
Lemma same_switch a b : same a b -> switch_to b = switch_to a.
Proof. rewrite same_same0; tauto. Qed.
Lemma same_active a b : same a b -> active b = active a.
Proof.
  intros H. unfold active. rewrite (same_sched _ _ H), (same_switch _ _ H). reflexivity.
Qed.
Lemma same0_prio a b p : same0 a b -> priority (procs b p) = priority (procs a p).
Proof. intros (H & _). apply H. Qed.
Lemma same0_alive a b p : same0 a b -> alive (procs b p) = alive (procs a p).
Proof. intros (H & _). apply H. Qed.
Lemma same0_top a b p : same0 a b -> top (procs b p) = top (procs a p).
Proof. intros (H & _). apply H. Qed.
Lemma same0_sig a b s : same0 a b -> signals (sems b s) = signals (sems a s).
Proof. intros (_ & H & _). apply H. Qed.
Lemma same0_created a b : same0 a b -> created b = created a.
Proof. intros (_ & _ & H). exact H. Qed.

Lemma rep_switch st q v : rep st q -> rep (set_switch st v) q.
Proof.
  intros (H1 & H2 & H3 & H4 & H5).
  split; [|split; [|split; [|split]]]; auto.
  intros l. eapply seg_frame; [|apply H1]. reflexivity.
Qed.
Lemma rep_sched st q v : rep st q -> rep (set_scheduled st v) q.
Proof.
  intros (H1 & H2 & H3 & H4 & H5).
  split; [|split; [|split; [|split]]]; auto.
  intros l. eapply seg_frame; [|apply H1]. reflexivity.
Qed.
Lemma rep_top st q p v : rep st q -> rep (set_top st p v) q.
Proof.
  intros (H1 & H2 & H3 & H4 & H5).
  split; [|split; [|split; [|split]]]; auto.
  - intros l. eapply seg_frame; [|apply H1]. intros x _. cbn. destruct (x =? p); auto.
  - intros x l. cbn. rewrite <- H3. destruct (x =? p); cbn; tauto.
Qed.
Lemma rep_prio st q p v : rep st q -> rep (set_priority st p v) q.
Proof.
  intros (H1 & H2 & H3 & H4 & H5).
  split; [|split; [|split; [|split]]]; auto.
  - intros l. eapply seg_frame; [|apply H1]. intros x _. cbn. destruct (x =? p); auto.
  - intros x l. cbn. rewrite <- H3. destruct (x =? p); cbn; tauto.
Qed.
Lemma rep_dead st q p : rep st q -> rep (set_dead st p) q.
Proof.
  intros (H1 & H2 & H3 & H4 & H5).
  split; [|split; [|split; [|split]]]; auto.
  - intros l. eapply seg_frame; [|apply H1]. intros x _. cbn. destruct (x =? p); auto.
  - intros x l. cbn. rewrite <- H3. destruct (x =? p); cbn; tauto.
Qed.
Lemma rep_signals st q s v : rep st q -> rep (set_signals st s v) q.
Proof.
  intros (H1 & H2 & H3 & H4 & H5).
  split; [|split; [|split; [|split]]]; auto.
  - intros l. cbn. destruct (l =? s); cbn; eapply seg_frame; try apply H1; reflexivity.
  - intros l. cbn. destruct (l =? s); cbn; auto.
Qed.

(** ** The scheduler *)
Definition prios (st : vm) : Prop :=
  forall p, In p (created st) -> 1 <= priority (procs st p) <= nprio.

Lemma ready_list_ok st p : prios st -> In p (created st) ->
  ready_list st p = Ok (priority (procs st p)).
Proof.
  intros H Hp. unfold ready_list. specialize (H p Hp).
  destruct (Z.leb_spec 1 (priority (procs st p))); [|lia].
  destruct (Z.leb_spec (priority (procs st p)) nprio); [|lia]. reflexivity.
Qed.

Lemma prios_same0 a b : same0 a b -> prios a -> prios b.
Proof.
  intros S0 H p Hp. rewrite (same0_prio _ _ _ S0).
  apply H. rewrite (same0_created _ _ S0) in Hp. exact Hp.
Qed.

Lemma activate_rep st q p :
  rep st q -> prios st -> In p (created st) ->
  exists st', activate st p = Ok st' /\ same0 st st' /\
    scheduled st' = scheduled st /\ switch_to st' = Some p /\
    rep st' (if oeq (active st) (Some p) then q
             else qfirst (priority (procs st p)) p q).
Proof.
  intros R P Hp. unfold activate.
  destruct (oeq (active st) (Some p)).
  - cbn [obind]. eexists; split; [reflexivity|].
    split; [exact (same0_refl st)|]. split; [reflexivity|]. split; [reflexivity|].
    apply rep_switch; auto.
  - rewrite (ready_list_ok _ _ P Hp). cbn [obind].
    destruct (add_first_link_rep st q (priority (procs st p)) p R Hp)
      as (st1 & -> & S1 & R1 & _).
    cbn [obind]. eexists; split; [reflexivity|].
    apply same_same0 in S1 as (S0 & S1 & S2).
    split; [exact S0|]. split; [exact S1|]. split; [reflexivity|].
    apply rep_switch; auto.
Qed.

Lemma sleep_rep st q p :
  rep st q -> prios st -> In p (created st) ->
  exists st', sleep st p = Ok st' /\ same st st' /\
    rep st' (qlast (priority (procs st p)) p q).
Proof.
  intros R P Hp. unfold sleep. rewrite (ready_list_ok _ _ P Hp). cbn [obind].
  destruct (add_last_link_rep st q (priority (procs st p)) p R Hp) as (st1 & -> & S1 & R1 & _).
  eauto.
Qed.

(** The choice of highest_priority_process. *)
Fixpoint ahigh (k : nat) (sch : option Z) (q : Z -> list Z) : option Z * (Z -> list Z) :=
  match k with
  | O => (None, q)
  | S k' =>
      let l := Z.of_nat k in
      match q l with
      | [] => ahigh k' sch q
      | p :: r =>
          if oeq sch (Some p) then
            match r with
            | [] => ahigh k' sch q
            | p2 :: r2 => (Some p2, qset l (r2 ++ [p]) q)
            end
          else (Some p, qset l r q)
      end
  end.

Lemma qrem_qset st q l p r :
  rep st q -> q l = p :: r -> forall x, qrem p q x = qset l r q x.
Proof.
  intros R E x. pose proof R as (H1 & H2 & H3 & H4 & H5).
  unfold qrem, qset. destruct (Z.eqb_spec x l) as [->|N].
  - rewrite E. cbn. destruct (Z.eq_dec p p); [|congruence].
    apply remove_notin. specialize (H4 l). rewrite E in H4. inversion H4; auto.
  - apply remove_notin. intros X. apply N. eapply rep_unique; eauto.
    rewrite E; left; auto.
Qed.

Lemma qrem_twice p q x : qrem p (qrem p q) x = qrem p q x.
Proof. unfold qrem. apply remove_notin. rewrite In_remove. tauto. Qed.

Lemma highest_from_rep k : forall st q, rep st q ->
  exists st', highest_from k st = Ok (fst (ahigh k (scheduled st) q), st') /\
    same st st' /\ rep st' (snd (ahigh k (scheduled st) q)).
Proof.
  induction k as [|k IH]; intros st q R.
  - exists st. split; [reflexivity|]. split; [apply same_refl|exact R].
  - cbn [highest_from ahigh]. set (l := Z.of_nat (S k)).
    rewrite (is_empty_rep st q l R).
    destruct (q l) as [|p r] eqn:E; [apply IH; auto|].
    destruct (remove_first_link_rep st q l p r R E) as (st1 & -> & S1 & R1 & M1).
    cbn [obind].
    destruct (oeq_spec (scheduled st) (Some p)) as [Es|Es].
    + assert (Cp : In p (created st1)).
      { rewrite (same_created _ _ S1). destruct R as (_ & _ & _ & _ & H5).
        apply (H5 l). rewrite E; left; auto. }
      destruct (add_last_link_rep st1 _ l p R1 Cp) as (st2 & -> & S2 & R2 & _).
      cbn [obind].
      rewrite (check_process_state_rep _ _ R2). cbn [negb].
      assert (R2' : rep st2 (qset l (r ++ [p]) q)).
      { eapply rep_ext; [|exact R2]. intros x. unfold qlast, qset.
        rewrite !qrem_twice. rewrite !(qrem_qset st q l p r R E). unfold qset.
        rewrite Z.eqb_refl. destruct (x =? l); auto. }
      assert (SS : same st st2) by (eapply same_trans; eauto).
      pose proof R2' as (H1 & H2 & H3 & H4 & H5).
      rewrite H2. rewrite (seg_first _ _ _ (H1 l)).
      unfold qset at 1 2. rewrite Z.eqb_refl. rewrite lasto_app.
      destruct r as [|p2 r2].
      * cbn [app oeq]. rewrite Z.eqb_refl.
        destruct (IH st2 q) as (st3 & -> & S3 & R3).
        { eapply rep_ext; [|exact R2']. intros x. unfold qset.
          destruct (Z.eqb_spec x l) as [->|]; auto. }
        exists st3. rewrite (same_sched _ _ SS) in *.
        split; [reflexivity|]. split; [eapply same_trans; eauto|auto].
      * cbn [app oeq].
        assert (N : p2 <> p).
        { pose proof R as (_ & _ & _ & H4' & _). specialize (H4' l).
          rewrite E in H4'. inversion H4' as [|? ? Ni _]; subst.
          intros ->. apply Ni; left; auto. }
        destruct (Z.eqb_spec p2 p) as [|_]; [congruence|].
        destruct (remove_first_link_rep st2 _ l p2 (r2 ++ [p]) R2') as (st3 & -> & S3 & R3 & _).
        { unfold qset. rewrite Z.eqb_refl. reflexivity. }
        cbn [obind]. exists st3. split; [reflexivity|].
        split; [eapply same_trans; eauto|]. cbn [snd].
        eapply rep_ext; [|exact R3]. intros x.
        rewrite (qrem_qset st2 (qset l ((p2 :: r2) ++ [p]) q) l p2 (r2 ++ [p]) R2').
        -- unfold qset. destruct (x =? l); auto.
        -- unfold qset. rewrite Z.eqb_refl. reflexivity.
    + exists st1. split; [reflexivity|]. split; [exact S1|]. cbn [snd].
      eapply rep_ext; [|exact R1]. intros x. symmetry. eapply qrem_qset; eauto.
Qed.

(** A priority whose list has nobody but (possibly) the scheduled process. *)
Definition idle_at (sch : option Z) (q : Z -> list Z) (j : Z) : Prop :=
  q j = [] \/ exists a, sch = Some a /\ q j = [a].

Lemma ahigh_none k sch q q' : ahigh k sch q = (None, q') ->
  q' = q /\ forall j, 1 <= j <= Z.of_nat k -> idle_at sch q j.
Proof.
  induction k as [|k IH]; cbn [ahigh].
  - intros H; inversion H; split; auto. intros; lia.
  - set (l := Z.of_nat (S k)).
    assert (EX : forall j, 1 <= j <= l -> j = l \/ 1 <= j <= Z.of_nat k) by (unfold l; lia).
    destruct (q l) as [|p r] eqn:E.
    + intros H. apply IH in H as (-> & H). split; auto.
      intros j Hj. destruct (EX j Hj) as [->|]; [left; auto|auto].
    + destruct (oeq_spec sch (Some p)) as [Es|]; [|discriminate].
      destruct r; [|discriminate].
      intros H. apply IH in H as (-> & H). split; auto.
      intros j Hj. destruct (EX j Hj) as [->|]; [right; eauto|auto].
Qed.

Lemma ahigh_some k sch q p q' :
  (forall l, NoDup (q l)) ->
  ahigh k sch q = (Some p, q') ->
  exists l, 1 <= l <= Z.of_nat k /\ sch <> Some p /\
    (forall j, l < j <= Z.of_nat k -> idle_at sch q j) /\
    ((exists r, q l = p :: r /\ q' = qset l r q) \/
     (exists a r, sch = Some a /\ q l = a :: p :: r /\ q' = qset l (r ++ [a]) q)).
Proof.
  intros ND. induction k as [|k IH]; cbn [ahigh]; [discriminate|].
  set (l := Z.of_nat (S k)).
  assert (EX : forall j l', l' <= Z.of_nat k -> l' < j <= l -> j = l \/ l' < j <= Z.of_nat k) by (unfold l; lia).
  destruct (q l) as [|x r] eqn:E.
  - intros H. apply IH in H as (l' & L & N & I1 & H). exists l'.
    split; [unfold l; lia|]. split; auto. split; auto.
    intros j Hj. destruct (EX j l' ltac:(lia) Hj) as [->|]; [left; auto|auto].
  - destruct (oeq_spec sch (Some x)) as [Es|Es].
    + destruct r as [|p2 r2].
      * intros H. apply IH in H as (l' & L & N & I1 & H). exists l'.
        split; [unfold l; lia|]. split; auto. split; auto.
        intros j Hj. destruct (EX j l' ltac:(lia) Hj) as [->|]; [right; eauto|auto].
      * intros H; inversion H; subst p2 q'. exists l.
        split; [unfold l; lia|].
        split.
        { rewrite Es. intros X; inversion X; subst x.
          specialize (ND l). rewrite E in ND. inversion ND as [|? ? Ni _]; subst.
          apply Ni; left; auto. }
        split; [intros; lia|]. right. exists x, r2; auto.
    + intros H; inversion H; subst x q'. exists l.
      split; [unfold l; lia|]. split; auto. split; [intros; lia|]. left. eauto.
Qed.

(** The queues after highest_priority_process, as sets. *)
Lemma ahigh_In k sch q p q' :
  (forall l, NoDup (q l)) -> (forall x a b, In x (q a) -> In x (q b) -> a = b) ->
  ahigh k sch q = (Some p, q') ->
  forall x l, In x (q' l) <-> In x (q l) /\ x <> p.
Proof.
  intros ND UN H x l. apply ahigh_some in H as (l0 & L & N & _ & H); auto.
  destruct H as [(r & E & ->)|(a & r & Es & E & ->)]; unfold qset;
    (destruct (Z.eqb_spec l l0) as [El|N0]; [rewrite El|]).
  - specialize (ND l0). rewrite E in ND. rewrite E. inversion ND; subst. cbn. intuition congruence.
  - split; [|tauto]. intros X. split; auto. intros ->.
    apply N0. eapply UN; [exact X|]. rewrite E; left; auto.
  - specialize (ND l0). rewrite E in ND. rewrite E. inversion ND as [|? ? N1 ND1]; subst.
    inversion ND1 as [|? ? N2 ND2]; subst. rewrite in_app_iff. cbn in *.
    intuition congruence.
  - split; [|tauto]. intros X. split; auto. intros ->.
    apply N0. eapply UN; [exact X|]. rewrite E; right; left; auto.
Qed.

Lemma rep_UN st q : rep st q -> forall x a b, In x (q a) -> In x (q b) -> a = b.
Proof. intros R x a b. apply (rep_unique _ _ _ _ _ R). Qed.
Lemma rep_ND st q : rep st q -> forall l, NoDup (q l).
Proof. intros (_ & _ & _ & H & _). exact H. Qed.
Lemma rep_created st q : rep st q -> forall l p, In p (q l) -> In p (created st).
Proof. intros (_ & _ & _ & _ & H). exact H. Qed.
Lemma rep_my st q : rep st q -> forall p l, my_list (procs st p) = Some l <-> In p (q l).
Proof. intros (_ & _ & H & _). exact H. Qed.

(** resume_process of a live process. *)
Definition preempts (st : vm) (p : Z) : bool :=
  match active st with
  | None => true
  | Some a => negb (a =? p) && (priority (procs st a) <=? priority (procs st p))
  end.
Definition qsleep (st : vm) (q : Z -> list Z) : Z -> list Z :=
  match active st with
  | None => q
  | Some a => match my_list (procs st a) with
              | None => q
              | Some _ => qlast (priority (procs st a)) a q
              end
  end.

Definition act_created (st : vm) : Prop :=
  forall a, active st = Some a -> In a (created st).

Lemma qfirst_qrem l p q x : qfirst l p (qrem p q) x = qfirst l p q x.
Proof. unfold qfirst, qset. rewrite !qrem_twice. reflexivity. Qed.

Lemma resume_rep st q p :
  rep st q -> prios st -> act_created st -> In p (created st) ->
  alive (procs st p) = true ->
  exists st', resume_process st p = Ok (true, st') /\ same0 st st' /\
    scheduled st' = scheduled st /\
    switch_to st' = (if preempts st p then Some p else switch_to st) /\
    rep st' (qfirst (priority (procs st p)) p (if preempts st p then qsleep st q else q)).
Proof.
  intros R P AC Hp Al. unfold resume_process, preempts, qsleep.
  destruct (active st) as [a|] eqn:Ea; cbn [oeq].
  - destruct (Z.eqb_spec a p) as [->|Na]; cbn [negb andb].
    + destruct (remove_from_list_rep st q p R) as (st1 & -> & S1 & R1 & M1).
      cbn [obind]. rewrite (same0_alive _ _ p (same_0 _ _ S1)), Al. cbn [negb].
      rewrite (same_active _ _ S1), Ea.
      assert (Hp1 : In p (created st1)) by (rewrite (same_created _ _ S1); auto).
      rewrite (ready_list_ok st1 p (prios_same0 _ _ (same_0 _ _ S1) P) Hp1).
      cbn [obind].
      destruct (add_first_link_rep st1 _ (priority (procs st1 p)) p R1 Hp1)
        as (st2 & -> & S2 & R2 & _).
      cbn [obind]. exists st2. split; [reflexivity|].
      pose proof (same_trans _ _ _ S1 S2) as SS. apply same_same0 in SS as (SA & SB & SC).
      split; [exact SA|]. split; [exact SB|]. split; [exact SC|].
      rewrite <- (same0_prio _ _ p (same_0 _ _ S1)).
      eapply rep_ext; [|exact R2]. intros x. symmetry. apply qfirst_qrem.
    + cbn [obind]. rewrite Al. cbn [negb]. rewrite Ea.
      rewrite (ready_list_ok st p P Hp). cbn [obind].
      destruct (priority (procs st a) <=? priority (procs st p)).
      * assert (exists st2, (match my_list (procs st a) with
                  | Some _ => sleep st a | None => Ok st end) = Ok st2 /\ same st st2 /\
                  rep st2 match my_list (procs st a) with
                    | Some _ => qlast (priority (procs st a)) a q | None => q end)
          as (st2 & -> & S2 & R2).
        { destruct (my_list (procs st a)).
          - destruct (sleep_rep st q a R P (AC a Ea)) as (st2 & -> & X). eauto.
          - exists st. split; auto. split; auto. apply same_refl. }
        cbn [obind].
        assert (Hp2 : In p (created st2)) by (rewrite (same_created _ _ S2); auto).
        destruct (activate_rep st2 _ p R2 (prios_same0 _ _ (same_0 _ _ S2) P) Hp2)
          as (st3 & -> & S3 & E1 & E2 & R3).
        cbn [obind]. exists st3. split; [reflexivity|].
        split; [eapply same0_trans; [exact (same_0 _ _ S2)|exact S3]|].
        split; [rewrite E1; apply same_sched; auto|]. split; [exact E2|].
        rewrite (same_active _ _ S2), Ea in R3. cbn [oeq] in R3.
        destruct (Z.eqb_spec a p); [congruence|].
        rewrite (same0_prio _ _ p (same_0 _ _ S2)) in R3. exact R3.
      * destruct (add_first_link_rep st _ (priority (procs st p)) p R Hp)
          as (st2 & -> & S2 & R2 & _).
        cbn [obind]. exists st2. split; [reflexivity|].
        apply same_same0 in S2 as (SA & SB & SC). auto.
  - cbn [obind]. rewrite Al. cbn [negb]. rewrite Ea.
    destruct (activate_rep st q p R P Hp) as (st3 & -> & S3 & E1 & E2 & R3).
    cbn [obind]. exists st3. split; [reflexivity|].
    split; [exact S3|]. split; [exact E1|]. split; [exact E2|].
    rewrite Ea in R3. exact R3.
Qed.

Lemma resume_dead st q p :
  rep st q -> alive (procs st p) = false ->
  active st <> Some p ->
  resume_process st p = Ok (false, st).
Proof.
  intros R Al N. unfold resume_process.
  destruct (oeq_spec (active st) (Some p)); [contradiction|].
  cbn [obind]. rewrite Al. reflexivity.
Qed.

(** ** The invariant between two primitives *)
Definition J (st : vm) (q : Z -> list Z) : Prop :=
  rep st q /\ prios st /\ act_created st /\
  (forall a, scheduled st = Some a -> In a (created st)) /\
  (forall l p, In p (q l) -> alive (procs st p) = true) /\
  (forall a, active st = Some a ->
     alive (procs st a) = true /\ forall s, nprio < s -> ~ In a (q s)) /\
  (forall s, 0 <= signals (sems st s)) /\
  (forall s, nprio < s -> 0 < signals (sems st s) -> q s = []).

Lemma qfirst_In l p q x y : In x (qfirst l p q y) <-> (x = p /\ y = l) \/ (x <> p /\ In x (q y)).
Proof.
  unfold qfirst, qset. destruct (Z.eqb_spec y l) as [E|E]; [rewrite E|].
  - cbn. rewrite qrem_In. intuition congruence.
  - rewrite qrem_In. intuition congruence.
Qed.

Lemma qlast_In l p q x y : In x (qlast l p q y) <-> (x = p /\ y = l) \/ (x <> p /\ In x (q y)).
Proof.
  unfold qlast, qset. destruct (Z.eqb_spec y l) as [E|E]; [rewrite E|].
  - rewrite in_app_iff. cbn. rewrite qrem_In. intuition congruence.
  - rewrite qrem_In. intuition congruence.
Qed.

Lemma qrem_id p q l : ~ In p (q l) -> qrem p q l = q l.
Proof. apply remove_notin. Qed.

Lemma qfirst_other l p q y : y <> l -> qfirst l p q y = qrem p q y.
Proof. intros N. unfold qfirst, qset. apply Z.eqb_neq in N. rewrite N. reflexivity. Qed.
Lemma qlast_other l p q y : y <> l -> qlast l p q y = qrem p q y.
Proof. intros N. unfold qlast, qset. apply Z.eqb_neq in N. rewrite N. reflexivity. Qed.

Lemma qsleep_sem st q s :
  (forall a, active st = Some a -> In a (created st)) -> prios st ->
  (forall a, active st = Some a -> ~ In a (q s)) -> nprio < s ->
  qsleep st q s = q s.
Proof.
  intros AC P H S. unfold qsleep. destruct (active st) as [a|]; auto.
  destruct (my_list (procs st a)); auto.
  specialize (P a (AC a eq_refl)).
  rewrite qlast_other by lia. apply qrem_id. auto.
Qed.

Lemma qsleep_In st q x l :
  rep st q ->
  In x (qsleep st q l) ->
  (exists l', In x (q l')).
Proof.
  intros R. unfold qsleep. destruct (active st) as [a|]; eauto.
  destruct (my_list (procs st a)) eqn:E; eauto.
  rewrite qlast_In. intros [(-> & _)|(_ & H)]; eauto.
  apply (rep_my _ _ R) in E. eauto.
Qed.

Lemma qsleep_sem_In st q x s :
  prios st -> act_created st -> nprio < s -> In x (qsleep st q s) -> In x (q s).
Proof.
  intros P AC S. unfold qsleep. destruct (active st) as [a|] eqn:Ea; eauto.
  destruct (my_list (procs st a)); eauto.
  specialize (P a (AC a Ea)).
  rewrite qlast_In. intros [(-> & ->)|(_ & H)]; eauto. lia.
Qed.

(** Resuming a live process keeps the invariant. *)
Lemma resume_J st q p :
  J st q -> In p (created st) -> alive (procs st p) = true ->
  exists st', resume_process st p = Ok (true, st') /\ same0 st st' /\
    scheduled st' = scheduled st /\
    switch_to st' = (if preempts st p then Some p else switch_to st) /\
    J st' (qfirst (priority (procs st p)) p (if preempts st p then qsleep st q else q)) /\
    (forall s, nprio < s ->
      qfirst (priority (procs st p)) p (if preempts st p then qsleep st q else q) s
      = qrem p q s).
Proof.
  intros (R & P & AC & SC & AL & AA & SG & SE) Hp Al.
  destruct (resume_rep st q p R P AC Hp Al) as (st' & E & S0 & E1 & E2 & R').
  exists st'. split; [exact E|]. split; [exact S0|]. split; [exact E1|].
  split; [exact E2|].
  pose proof (P p Hp) as Pp.
  set (k := priority (procs st p)) in *.
  set (q0 := if preempts st p then qsleep st q else q) in *.
  assert (SQ : forall s, nprio < s -> qfirst k p q0 s = qrem p q s).
  { intros s Hs. rewrite qfirst_other by lia. unfold qrem. f_equal.
    unfold q0. destruct (preempts st p); auto.
    apply qsleep_sem; auto. intros a Ha. apply AA; auto. }
  split; [|exact SQ].
  assert (Q0 : forall x l, In x (q0 l) -> exists l', In x (q l')).
  { intros x l. unfold q0. destruct (preempts st p); eauto. apply qsleep_In; auto. }
  assert (ACT : forall a, active st' = Some a -> a = p \/ active st = Some a).
  { intros a. unfold active. rewrite E1, E2.
    destruct (preempts st p); [intros X; inversion X; auto|].
    destruct (switch_to st); auto. }
  split; [exact R'|]. split; [eapply prios_same0; eauto|].
  split; [|split; [|split; [|split; [|split]]]].
  - intros a Ha. rewrite (same0_created _ _ S0). destruct (ACT a Ha) as [->|]; auto.
  - intros a. rewrite E1, (same0_created _ _ S0). auto.
  - intros l x. rewrite (same0_alive _ _ x S0). rewrite qfirst_In.
    intros [(-> & _)|(_ & X)]; auto. apply Q0 in X as (l' & X). eauto.
  - intros a Ha. rewrite (same0_alive _ _ a S0).
    destruct (ACT a Ha) as [->|Ha'].
    + split; auto. intros s Hs. rewrite SQ by auto. apply qrem_notin.
    + split; [apply AA; auto|]. intros s Hs. rewrite SQ by auto.
      rewrite qrem_In. intros (X & _). revert X. apply AA; auto.
  - intros s. rewrite (same0_sig _ _ s S0). auto.
  - intros s Hs. rewrite (same0_sig _ _ s S0). intros X.
    rewrite SQ by auto. unfold qrem. rewrite SE; auto.
Qed.

Lemma J_remove_first st q s p r :
  J st q -> nprio < s -> q s = p :: r ->
  exists st1, remove_first_link st s = Ok (p, st1) /\ same st st1 /\ J st1 (qrem p q) /\
    In p (created st1) /\ alive (procs st1 p) = true /\
    (forall x, qrem p q x = if x =? s then r else q x) /\
    my_list (procs st1 p) = None.
Proof.
  intros (R & P & AC & SC & AL & AA & SG & SE) Hs E.
  destruct (remove_first_link_rep st q s p r R E) as (st1 & -> & S1 & R1 & M1).
  exists st1. split; [reflexivity|]. split; [exact S1|].
  pose proof (same_0 _ _ S1) as S0.
  assert (Inp : In p (q s)) by (rewrite E; left; auto).
  split; [|split; [|split; [|split]]]; [| | | |exact M1].
  - split; [exact R1|]. split; [eapply prios_same0; eauto|].
    split; [|split; [|split; [|split; [|split]]]].
    + intros a. rewrite (same_active _ _ S1), (same_created _ _ S1). apply AC.
    + intros a. rewrite (same_sched _ _ S1), (same_created _ _ S1). apply SC.
    + intros l x. rewrite (same0_alive _ _ x S0), qrem_In. intros (X & _). eauto.
    + intros a. rewrite (same_active _ _ S1), (same0_alive _ _ a S0). intros Ha.
      split; [apply AA; auto|]. intros s' Hs'. rewrite qrem_In. intros (X & _).
      revert X. apply AA; auto.
    + intros s'. rewrite (same0_sig _ _ s' S0). auto.
    + intros s' Hs'. rewrite (same0_sig _ _ s' S0). intros X. unfold qrem.
      rewrite SE; auto.
  - rewrite (same_created _ _ S1). eapply rep_created; eauto.
  - rewrite (same0_alive _ _ p S0). eauto.
  - intros x. rewrite (qrem_qset st q s p r R E). reflexivity.
Qed.

Lemma J_top st q p v : J st q -> J (set_top st p v) q.
Proof.
  intros (R & P & AC & SC & AL & AA & SG & SE).
  split; [apply rep_top; auto|]. split.
  { intros x Hx. cbn. destruct (x =? p); cbn; apply P; auto. }
  split; [exact AC|]. split; [exact SC|]. split.
  { intros l x Hx. cbn. destruct (x =? p); cbn; eauto. }
  split; [|split; [exact SG|exact SE]].
  intros a Ha. cbn. split; [destruct (a =? p); cbn; apply AA; auto|apply AA; auto].
Qed.

Lemma J_signals st q s v :
  J st q -> 0 <= v -> (nprio < s -> 0 < v -> q s = []) -> J (set_signals st s v) q.
Proof.
  intros (R & P & AC & SC & AL & AA & SG & SE) Hv Hq.
  split; [apply rep_signals; auto|].
  split; [exact P|]. split; [exact AC|]. split; [exact SC|]. split; [exact AL|].
  split; [exact AA|]. split.
  - intros x. cbn. destruct (x =? s); cbn; auto.
  - intros x Hx. cbn. destruct (Z.eqb_spec x s) as [->|]; cbn; auto.
Qed.

Lemma preempts_same a b p : same a b -> preempts b p = preempts a p.
Proof.
  intros S. unfold preempts. rewrite (same_active _ _ S).
  destruct (active a) as [x|]; auto.
  rewrite !(same0_prio _ _ _ (same_0 _ _ S)). reflexivity.
Qed.

(** The scalar fields that a signal does not touch. *)
Definition frame (a b : vm) : Prop :=
  (forall p, priority (procs b p) = priority (procs a p) /\
             alive (procs b p) = alive (procs a p)) /\
  created b = created a.
Lemma frame_same0 a b : same0 a b -> frame a b.
Proof. intros (A & B & C). split; auto. intros p. destruct (A p) as (x & y & _); auto. Qed.
Lemma frame_refl a : frame a a.
Proof. split; auto. Qed.
Lemma frame_trans a b c : frame a b -> frame b c -> frame a c.
Proof.
  intros (A & B) (C & D). split; [|congruence].
  intros p. destruct (A p), (C p). split; congruence.
Qed.

(** What a signal does. *)
Definition signalled (st : vm) (q : Z -> list Z) (s : Z) (incr : bool)
    (o : option Z) (st' : vm) (q' : Z -> list Z) : Prop :=
  match o with
  | None =>
      q s = [] /\ q' = q /\ switch_to st' = switch_to st /\
      (forall x, signals (sems st' x) =
         signals (sems st x) + (if (x =? s) && incr then 1 else 0)) /\
      (forall x, top (procs st' x) = top (procs st x)) /\
      (forall x, my_list (procs st' x) = my_list (procs st x))
  | Some p =>
      exists r st1, q s = p :: r /\
      (forall x, nprio < x -> q' x = if x =? s then r else q x) /\
      (forall x, signals (sems st' x) = signals (sems st x)) /\
      (forall x, top (procs st' x) = if x =? p then Some s else top (procs st x)) /\
      switch_to st' = (if preempts st p then Some p else switch_to st) /\
      same st st1 /\ rep st1 (qrem p q) /\ my_list (procs st1 p) = None /\
      q' = qfirst (priority (procs st p)) p
             (if preempts st p then qsleep st1 (qrem p q) else qrem p q)
  end.

Lemma sync_signal_J st q s incr :
  J st q -> nprio < s ->
  exists o st' q', sync_signal st s incr = Ok (o, st') /\ J st' q' /\ frame st st' /\
    scheduled st' = scheduled st /\ signalled st q s incr o st' q'.
Proof.
  intros HJ Hs. pose proof HJ as (R & P & AC & SC & AL & AA & SG & SE).
  unfold sync_signal.
  assert (L : (length (q s) <= length (created st))%nat) by (eapply rep_len; eauto).
  destruct (length (created st)) as [|f] eqn:Ef; cbn [sync_signal_loop];
    rewrite (is_empty_rep st q s R); destruct (q s) as [|p r] eqn:E.
  2: cbn in L; lia.
  1, 2: exists None; eexists; exists q; (split; [reflexivity|]);
    (split; [destruct incr; [apply J_signals; auto; specialize (SG s); lia|exact HJ]|]);
    (split; [destruct incr; exact (frame_refl st)|]); (split; [destruct incr; reflexivity|]);
    cbn; (split; [exact E|]); (split; [reflexivity|]); (split; [destruct incr; reflexivity|]);
    (split; [|destruct incr; auto]);
    intros x; destruct incr; cbn; destruct (Z.eqb_spec x s); subst; cbn; lia.
  destruct (J_remove_first st q s p r HJ Hs E) as (st1 & -> & S1 & J1 & C1 & A1 & Q1 & M1).
  cbn [obind].
  destruct (resume_J st1 _ p J1 C1 A1) as (st2 & -> & S2 & E1 & E2 & J2 & SQ2).
  cbn [obind]. exists (Some p). eexists. eexists. split; [reflexivity|].
  pose proof (same_0 _ _ S1) as S10.
  split; [apply J_top; exact J2|].
  split.
  { eapply frame_trans; [apply frame_same0; exact S10|].
    eapply frame_trans; [apply frame_same0; exact S2|].
    split; auto. intros x. cbn. destruct (x =? p); auto. }
  split; [cbn; rewrite E1; apply same_sched; auto|].
  exists r, st1. split; [exact E|].
  rewrite (preempts_same _ _ p S1) in *.
  rewrite (same0_prio _ _ p S10) in *.
  split.
  { intros x Hx. rewrite SQ2 by auto. rewrite qrem_twice. apply Q1. }
  split; [intros x; cbn; rewrite (same0_sig _ _ x S2); apply same0_sig; auto|].
  split.
  { intros x. cbn. destruct (x =? p); cbn; auto.
    rewrite (same0_top _ _ x S2). apply same0_top; auto. }
  split; [cbn; rewrite E2; rewrite (same_switch _ _ S1); reflexivity|].
  split; [exact S1|]. split; [apply J1|]. split; [exact M1|]. reflexivity.
Qed.

(** The invariant without the clause on the active process, which is in between
    when it is being put to wait. *)
Definition K (st : vm) (q : Z -> list Z) : Prop :=
  rep st q /\ prios st /\ act_created st /\
  (forall a, scheduled st = Some a -> In a (created st)) /\
  (forall l p, In p (q l) -> alive (procs st p) = true) /\
  (forall s, 0 <= signals (sems st s)) /\
  (forall s, nprio < s -> 0 < signals (sems st s) -> q s = []).

Definition AA (st : vm) (q : Z -> list Z) : Prop :=
  forall a, active st = Some a ->
     alive (procs st a) = true /\ forall s, nprio < s -> ~ In a (q s).

Lemma J_KA st q : J st q <-> K st q /\ AA st q.
Proof. unfold J, K, AA. tauto. Qed.

Lemma K_same0 st st' q q' :
  K st q -> same0 st st' -> rep st' q' ->
  (forall x l, In x (q' l) -> exists l', In x (q l')) ->
  (forall s, nprio < s -> q s = [] -> q' s = []) ->
  (forall a, scheduled st' = Some a -> In a (created st)) ->
  (forall a, switch_to st' = Some a -> In a (created st)) ->
  K st' q'.
Proof.
  intros (R & P & AC & SC & AL & SG & SE) S0 R' H1 H2 H3 H4.
  split; [exact R'|]. split; [eapply prios_same0; eauto|].
  split; [|split; [|split; [|split]]].
  - intros a. unfold active. rewrite (same0_created _ _ S0).
    destruct (switch_to st') eqn:E; intros X; [inversion X; subst; auto|auto].
  - intros a. rewrite (same0_created _ _ S0). auto.
  - intros l x X. rewrite (same0_alive _ _ x S0). apply H1 in X as (l' & X). eauto.
  - intros s. rewrite (same0_sig _ _ s S0). auto.
  - intros s Hs. rewrite (same0_sig _ _ s S0). auto.
Qed.

Definition yielded (st : vm) (q : Z -> list Z) (a : Z)
    (o : option Z) (st' : vm) (q' : Z -> list Z) : Prop :=
  match o with
  | Some p =>
      exists q1, ahigh (Z.to_nat nprio) (Some a) q = (Some p, q1) /\
      switch_to st' = Some p /\ scheduled st' = Some a /\
      In p (created st) /\ alive (procs st p) = true /\
      (forall s, nprio < s -> ~ In p (q s)) /\
      q' = (if oeq (active st) (Some p) then q1 else qfirst (priority (procs st p)) p q1)
  | None =>
      ahigh (Z.to_nat nprio) (Some a) q = (None, q) /\
      switch_to st' = switch_to st /\ q' = q /\
      scheduled st' = (if oeq (my_list (procs st a)) (Some (priority (procs st a)))
                       then Some a else None)
  end.

Lemma ahigh_facts st q a p q1 :
  rep st q -> ahigh (Z.to_nat nprio) (Some a) q = (Some p, q1) ->
  (exists l, 1 <= l <= nprio /\ In p (q l)) /\ a <> p /\
  (forall x l, In x (q1 l) <-> In x (q l) /\ x <> p) /\
  (forall s, nprio < s -> ~ In p (q s) /\ q1 s = q s).
Proof.
  intros R H. pose proof (rep_ND _ _ R) as ND. pose proof (rep_UN _ _ R) as UN.
  pose proof (ahigh_In _ _ _ _ _ ND UN H) as I1.
  apply ahigh_some in H as (l & L & N & _ & H); auto.
  change (Z.of_nat (Z.to_nat nprio)) with nprio in L.
  assert (Ip : In p (q l)).
  { destruct H as [(r & E & _)|(b & r & _ & E & _)]; rewrite E; cbn; auto. }
  split; [eauto|]. split; [congruence|]. split; [exact I1|].
  intros s Hs. split.
  - intros X. assert (s = l) by (eapply UN; eauto). lia.
  - destruct H as [(r & _ & ->)|(b & r & _ & _ & ->)]; unfold qset;
      destruct (Z.eqb_spec s l); auto; lia.
Qed.

Lemma is_ready_ok st p : prios st -> In p (created st) ->
  is_ready st p = Ok (oeq (my_list (procs st p)) (Some (priority (procs st p)))).
Proof. intros P H. unfold is_ready. rewrite ready_list_ok; auto. Qed.

Lemma ayp_K st q a :
  K st q -> scheduled st = Some a ->
  exists o st' q', ACTIVE_PROCESS_YIELD st = Ok (o, st') /\ K st' q' /\ same0 st st' /\
    yielded st q a o st' q' /\ (forall s, nprio < s -> q' s = q s).
Proof.
  intros HK Ea. pose proof HK as (R & P & AC & SC & AL & SG & SE).
  unfold ACTIVE_PROCESS_YIELD, next_scheduled_process, highest_priority_process.
  destruct (highest_from_rep (Z.to_nat nprio) st q R) as (st1 & -> & S1 & R1).
  rewrite Ea in R1 |- *. cbn [obind].
  destruct (ahigh (Z.to_nat nprio) (Some a) q) as [[p|] q1] eqn:EH; cbn [fst snd] in *.
  - destruct (ahigh_facts _ _ _ _ _ R EH) as ((l & Ll & Lp) & Nap & I1 & SQ).
    assert (Cp : In p (created st)) by (eapply rep_created; eauto).
    assert (Cp1 : In p (created st1)) by (rewrite (same_created _ _ S1); auto).
    cbn [obind activate_oop].
    destruct (activate_rep st1 q1 p R1 (prios_same0 _ _ (same_0 _ _ S1) P) Cp1)
      as (st2 & -> & S2 & E1 & E2 & R2).
    cbn [obind]. rewrite (same_active _ _ S1) in R2.
    rewrite (same0_prio _ _ p (same_0 _ _ S1)) in R2.
    exists (Some p), st2. eexists. split; [reflexivity|].
    assert (S02 : same0 st st2) by (eapply same0_trans; [apply same_0; eauto|auto]).
    assert (SQ' : forall s, nprio < s ->
       (if oeq (active st) (Some p) then q1 else qfirst (priority (procs st p)) p q1) s = q s).
    { intros s Hs. destruct (SQ s Hs) as (Np & Eq).
      destruct (oeq (active st) (Some p)); [exact Eq|].
      pose proof (P p Cp). rewrite qfirst_other by lia.
      rewrite qrem_id by (rewrite Eq; auto). exact Eq. }
    split.
    { eapply K_same0; [exact HK|exact S02|exact R2| | | |].
      - intros x l'. destruct (oeq (active st) (Some p)).
        + rewrite I1. intros (X & _); eauto.
        + rewrite qfirst_In. rewrite I1. intros [(-> & _)|(_ & X & _)]; eauto.
      - intros s Hs X. rewrite SQ'; auto.
      - rewrite E1, (same_sched _ _ S1). auto.
      - rewrite E2. intros x X; inversion X; subst; auto. }
    split; [exact S02|]. split; [|exact SQ'].
    exists q1. split; [exact EH|]. split; [exact E2|].
    split; [rewrite E1, (same_sched _ _ S1); auto|]. split; [exact Cp|].
    split; [eapply AL; eauto|].
    split; [|reflexivity]. intros s Hs. apply SQ; auto.
  - destruct (ahigh_none _ _ _ _ EH) as (-> & _).
    rewrite (same_sched _ _ S1), Ea.
    assert (Ca : In a (created st)) by auto.
    assert (Ca1 : In a (created st1)) by (rewrite (same_created _ _ S1); auto).
    rewrite (is_ready_ok st1 a (prios_same0 _ _ (same_0 _ _ S1) P) Ca1).
    cbn [obind activate_oop].
    assert (ME : my_list (procs st1 a) = my_list (procs st a)).
    { pose proof (rep_my _ _ R) as M. pose proof (rep_my _ _ R1) as M1.
      destruct (my_list (procs st a)) as [l|] eqn:E.
      - apply M1. apply M. exact E.
      - destruct (my_list (procs st1 a)) as [l|] eqn:E'; auto.
        apply M1, M in E'. congruence. }
    rewrite ME, (same0_prio _ _ a (same_0 _ _ S1)).
    exists None. eexists. exists q. split; [reflexivity|].
    destruct (oeq (my_list (procs st a)) (Some (priority (procs st a)))) eqn:EO.
    + split.
      { eapply K_same0; [exact HK|apply same_0; exact S1|exact R1|eauto|auto| |].
        - rewrite (same_sched _ _ S1). auto.
        - rewrite (same_switch _ _ S1). intros b Hb. apply AC. unfold active.
          rewrite Hb. reflexivity. }
      split; [apply same_0; exact S1|]. split; [|auto].
      cbn. rewrite EO. split; [exact EH|]. split; [apply same_switch; auto|].
      split; [reflexivity|]. rewrite (same_sched _ _ S1); auto.
    + split.
      { eapply K_same0; [exact HK|exact (same_0 _ _ S1)|apply rep_sched; exact R1|eauto|auto| |].
        - cbn. discriminate.
        - cbn. rewrite (same_switch _ _ S1). intros b Hb. apply AC. unfold active.
          rewrite Hb. reflexivity. }
      split; [exact (same_0 _ _ S1)|]. split; [|auto].
      cbn. rewrite EO. split; [exact EH|]. split; [apply same_switch; auto|].
      split; [reflexivity|]. reflexivity.
Qed.

(** ** Priorities *)
Definition rdy (k : Z) : Prop := 1 <= k <= nprio.

(** Every ready process is in the list of its priority, and the active process has
    the highest; [p] is exempted. *)
Definition Pex (p : Z) (st : vm) (q : Z -> list Z) : Prop :=
  (forall k x, rdy k -> In x (q k) -> x <> p -> priority (procs st x) = k) /\
  (forall a, active st = Some a -> (a <> p -> In a (q (priority (procs st a)))) /\
     forall k x, rdy k -> In x (q k) -> x <> p -> k <= priority (procs st a)) /\
  (active st = None -> forall k x, rdy k -> In x (q k) -> x = p).
Definition Pr (st : vm) (q : Z -> list Z) : Prop :=
  (forall k x, rdy k -> In x (q k) -> priority (procs st x) = k) /\
  (forall a, active st = Some a -> In a (q (priority (procs st a))) /\
     forall k x, rdy k -> In x (q k) -> k <= priority (procs st a)) /\
  (active st = None -> forall k x, rdy k -> ~ In x (q k)).

Lemma Pr_Pex p st q : Pr st q -> Pex p st q.
Proof.
  intros (A & B & C). split; [|split].
  - intros; eapply A; eauto.
  - intros a Ha. destruct (B a Ha) as (B1 & B2). split; eauto.
  - intros N k x Hk X. exfalso. eapply C; eauto.
Qed.

Lemma qsleep_In_iff st q a x l :
  rep st q -> active st = Some a -> my_list (procs st a) <> None ->
  In x (qsleep st q l) <-> (x = a /\ l = priority (procs st a)) \/ (x <> a /\ In x (q l)).
Proof.
  intros R Ha M. unfold qsleep. rewrite Ha.
  destruct (my_list (procs st a)); [|congruence]. apply qlast_In.
Qed.

Lemma resume_P st st' q p :
  rep st q -> prios st -> act_created st -> In p (created st) ->
  Pex p st q ->
  same0 st st' -> scheduled st' = scheduled st ->
  switch_to st' = (if preempts st p then Some p else switch_to st) ->
  Pr st' (qfirst (priority (procs st p)) p (if preempts st p then qsleep st q else q)).
Proof.
  intros R P AC Hp (A & B & C) S0 E1 E2.
  assert (X0 : forall k x, rdy k -> x <> p ->
     In x ((if preempts st p then qsleep st q else q) k) ->
     priority (procs st x) = k /\
     (forall a, active st = Some a -> k <= priority (procs st a)) /\
     (active st <> None)).
  { intros k x Hk N Hx.
    destruct (active st) as [a|] eqn:Ea.
    - destruct (B a eq_refl) as (B1 & B2).
      assert (K0 : In x (q k) -> priority (procs st x) = k /\
         (forall a0, Some a = Some a0 -> k <= priority (procs st a0)) /\ Some a <> None).
      { intros Y. split; [eapply A; eauto|]. split; [|discriminate].
        intros a0 H; inversion H; subst. eapply B2; eauto. }
      destruct (preempts st p); auto.
      unfold qsleep in Hx. rewrite Ea in Hx.
      destruct (my_list (procs st a)) eqn:M; auto.
      apply qlast_In in Hx as [(-> & ->)|(Na & Hx)]; [|auto].
      split; [reflexivity|]. split; [|discriminate]. intros a0 H; inversion H; subst; lia.
    - exfalso. apply N. apply (C eq_refl k); auto.
      destruct (preempts st p); auto. unfold qsleep in Hx. rewrite Ea in Hx. exact Hx. }
  split; [|split].
  - intros k x Hk. rewrite (same0_prio _ _ x S0). rewrite qfirst_In.
    intros [(-> & ->)|(N & Hx)]; auto. eapply X0; eauto.
  - intros a Ha. rewrite (same0_prio _ _ a S0). unfold active in Ha. rewrite E1, E2 in Ha.
    unfold preempts in *.
    destruct (active st) as [b|] eqn:Eb.
    + destruct (Z.eqb_spec b p) as [->|Nb]; cbn [negb andb] in *.
      * assert (a = p).
        { unfold active in Eb. destruct (switch_to st); congruence. }
        subst a. split; [apply qfirst_In; auto|].
        intros k x Hk. rewrite qfirst_In. intros [(-> & ->)|(N & Hx)]; [lia|].
        eapply X0; eauto.
      * destruct (Z.leb_spec (priority (procs st b)) (priority (procs st p))).
        -- inversion Ha; subst a. split; [apply qfirst_In; auto|].
           intros k x Hk. rewrite qfirst_In. intros [(-> & ->)|(N & Hx)]; [lia|].
           destruct (X0 k x Hk N Hx) as (_ & Y & _). specialize (Y b eq_refl). lia.
        -- assert (a = b).
           { unfold active in Eb. destruct (switch_to st); congruence. }
           subst a. split.
           ++ apply qfirst_In. right. split; auto. apply B; auto.
           ++ intros k x Hk. rewrite qfirst_In. intros [(-> & ->)|(N & Hx)]; [lia|].
              eapply X0; eauto.
    + inversion Ha; subst a. split; [apply qfirst_In; auto|].
      intros k x Hk. rewrite qfirst_In. intros [(-> & ->)|(N & Hx)]; [lia|].
      destruct (X0 k x Hk N Hx) as (_ & _ & Y). congruence.
  - unfold active. rewrite E1, E2. unfold preempts.
    destruct (active st) as [b|] eqn:Eb; [|discriminate].
    intros H. exfalso. unfold active in Eb.
    destruct (negb (b =? p) && (priority (procs st b) <=? priority (procs st p)));
      [discriminate|]. destruct (switch_to st); congruence.
Qed.

Lemma ayp_P st st' q q' a o :
  rep st q -> prios st -> yielded st q a o st' q' -> same0 st st' ->
  switch_to st = None -> scheduled st = Some a ->
  (forall k, rdy k -> ~ In a (q k)) ->
  (forall k x, rdy k -> In x (q k) -> priority (procs st x) = k) ->
  Pr st' q'.
Proof.
  intros R P Y S0 SW SCH NA M.
  assert (Ea : active st = Some a) by (unfold active; rewrite SW; auto).
  destruct o as [p|]; cbn in Y.
  - destruct Y as (q1 & EH & W & Sc & Cp & Ap & _ & ->).
    destruct (ahigh_facts _ _ _ _ _ R EH) as ((l & Ll & Lp) & Nap & I1 & SQ).
    destruct (ahigh_some _ _ _ _ _ (rep_ND _ _ R) EH) as (l0 & L0 & _ & ID & HH).
    assert (l0 = l).
    { eapply rep_unique; [exact R| |exact Lp].
      destruct HH as [(r & E & _)|(b & r & _ & E & _)]; rewrite E; cbn; auto. }
    subst l0. rewrite Ea. cbn [oeq]. destruct (Z.eqb_spec a p); [congruence|].
    assert (Mp : priority (procs st p) = l) by (apply M; auto; exact Ll).
    assert (AC : active st' = Some p) by (unfold active; rewrite W; auto).
    assert (UP : forall k x, rdy k -> In x (q k) -> k <= l).
    { intros k x Hk Hx. destruct (Z.le_gt_cases k l) as [|G]; auto. exfalso.
      change (Z.of_nat (Z.to_nat nprio)) with nprio in ID.
      assert (Hk' : l < k <= nprio) by (destruct Hk; lia).
      destruct (ID k Hk') as [E|(b & Eb & E)]; rewrite E in Hx.
      - contradiction.
      - inversion Eb; subst b. apply (NA k Hk). rewrite E; left; auto. }
    split; [|split].
    + intros k x Hk. rewrite (same0_prio _ _ x S0), qfirst_In, I1.
      intros [(-> & ->)|(N & Hx & _)]; auto.
    + intros b Hb. rewrite AC in Hb. inversion Hb; subst b.
      rewrite (same0_prio _ _ p S0). split; [apply qfirst_In; auto|].
      intros k x Hk. rewrite qfirst_In, I1. rewrite Mp.
      intros [(-> & ->)|(N & Hx & _)]; [lia|eauto].
    + congruence.
  - destruct Y as (EH & W & -> & Sc).
    apply ahigh_none in EH as (_ & ID).
    change (Z.of_nat (Z.to_nat nprio)) with nprio in ID.
    assert (EM : forall k x, rdy k -> ~ In x (q k)).
    { intros k x Hk Hx. destruct (ID k Hk) as [E|(b & Eb & E)]; rewrite E in Hx.
      - contradiction.
      - inversion Eb; subst b. apply (NA k Hk). rewrite E; left; auto. }
    split; [|split].
    + intros k x Hk Hx. exfalso. eapply EM; eauto.
    + intros b Hb. exfalso. unfold active in Hb. rewrite W, SW, Sc in Hb.
      destruct (oeq_spec (my_list (procs st a)) (Some (priority (procs st a)))) as [E|]; [|discriminate].
      apply (rep_my _ _ R) in E. eapply NA; [|exact E].
      apply P. eapply rep_created; eauto.
    + intros _. exact EM.
Qed.
