(** The lock and its owner; what terminate and queueInterrupt: do. *)
From Verif Require Import Base Locks LocksSpec LocksProofs.
Local Open Scope Z_scope.

Lemma run_init_inv prog h st : run (new_lock prog) h = Ok st -> inv st /\ shaped st.
Proof.
  intros H. split; [eapply run_inv; [apply inv_init|exact H]|].
  eapply run_shaped; [apply inv_init|apply shaped_init|exact H].
Qed.

Lemma exclusion prog h st p q : run (new_lock prog) h = Ok st -> busy st p -> busy st q -> p = q.
Proof.
  intros H P Q. destruct (run_init_inv _ _ _ H) as ((_ & I & _) & _). apply busy_iff in P, Q. auto.
Qed.

Lemma owner_runs prog h st p : run (new_lock prog) h = Ok st -> inside st p ->
  at_ (procs st p) = Normal /\ exists st', step st (Step p) = Ok st'.
Proof.
  intros H P. destruct (run_init_inv _ _ _ H) as (I & _).
  pose proof I as (I1 & I2 & I3 & I4 & I5 & I6 & I7). split.
  - destruct (I7 p) as (_ & X). apply inside_iff in P.
    destruct (at_ (procs st p)) eqn:E; auto; rewrite X in P by discriminate; discriminate.
  - apply busy_steps; auto. left. auto.
Qed.

Lemma nested prog h st p b k r t : run (new_lock prog) h = Ok st -> inside st p ->
  stack (procs st p) = (k, Critical b :: r) :: t ->
  exists st', step st (Step p) = Ok st' /\
    procs st' p = mkP Normal ((Nested, b) :: (k, r) :: t) /\ inside st' p /\
    signals st' = signals st /\ waiters st' = waiters st.
Proof.
  intros H P Es. destruct (owner_runs _ _ _ _ H P) as (N & _).
  destruct (run_init_inv _ _ _ H) as (I & _).
  pose proof I as (I1 & I2 & I3 & I4 & I5 & I6 & I7).
  apply inside_iff in P. pose proof P as O. apply I4, is_owner_iff in O.
  exists (goto st p Normal ((Nested, b) :: (k, r) :: t)).
  split; [|split; [|split; [|split; reflexivity]]].
  - cbn. unfold step_proc. rewrite N, Es, O. destruct k; reflexivity.
  - cbn. apply upd_same.
  - apply inside_iff. cbn. rewrite upd_same. unfold insideb in *. rewrite Es in P.
    destruct k; exact P.
Qed.

Lemma based_depth s : based s ->
  length (filter (fun f : frame => match fst f with Base => false | _ => true end) s) = 0%nat.
Proof.
  induction s as [|[k a] s IH]; intros B; auto.
  pose proof (B (k, a) (or_introl eq_refl)) as X. cbn in X. subst k. cbn. apply IH.
  intros f Hf. apply B. right. auto.
Qed.

(** The only step by which the owner stops being inside is the end of the outermost
    block; the step after that releases the lock. *)
Lemma outermost prog h st p st' : run (new_lock prog) h = Ok st -> inside st p ->
  step st (Step p) = Ok st' -> ~ inside st' p ->
  depth st p = 1%nat /\ at_ (procs st' p) = Release /\ signals st' = 0 /\
  exists st2, step st' (Step p) = Ok st2 /\
    match waiters st' with
    | [] => signals st2 = 1 /\ waiters st2 = []
    | w :: r => waiters st2 = r /\ signals st2 = 0 /\
        (exists g b, at_ (procs st' w) = Blocked g b /\ at_ (procs st2 w) = Got (negb g) b)
    end.
Proof.
  intros H P E NI. destruct (owner_runs _ _ _ _ H P) as (N & _).
  destruct (run_init_inv _ _ _ H) as (I & Sh).
  pose proof (step_inv _ _ _ I E) as I'.
  cbn in E. unfold step_proc in E. rewrite N in E.
  assert (K : forall c s, st' = goto st p c s -> outers s = outers (stack (procs st p)) -> False).
  { intros c s -> O. apply NI. apply inside_iff. apply inside_iff in P. cbn. rewrite upd_same.
    unfold insideb in *. cbn [stack]. rewrite O. auto. }
  destruct (stack (procs st p)) as [|[k [|[|b] r]] t] eqn:Es; [discriminate| | |].
  - destruct k.
    + injection E as <-. exfalso. eapply K; [reflexivity|reflexivity].
    + injection E as <-. exfalso. eapply K; [reflexivity|reflexivity].
    + injection E as <-. clear K NI.
      set (st' := goto _ _ _ _) in *.
      assert (R : at_ (procs st' p) = Release) by (unfold st'; cbn; rewrite upd_same; reflexivity).
      assert (S0 : signals st' = 0).
      { destruct I' as (I1 & I2 & I3 & _). destruct I1 as [|S1]; auto. destruct (I3 S1) as (X & _).
        specialize (X p). unfold busyb, granted in X. rewrite R, orb_true_r in X. discriminate. }
      split; [|split; [exact R|split; [exact S0|]]].
      * pose proof (Sh p) as Sp. unfold depth. rewrite Es in *. cbn in Sp |- *.
        rewrite based_depth by auto. auto.
      * exists (signal (goto st' p Normal (stack (procs st' p)))). split.
        { cbn [step]. unfold step_proc. rewrite R. reflexivity. }
        clearbody st'. unfold signal. cbn [waiters goto].
        destruct (waiters st') as [|w r] eqn:W.
        { cbn. split; [lia|auto]. }
        pose proof I' as (_ & _ & _ & _ & I5 & _).
        assert (Bw : blockedb (procs st' w) = true) by (apply I5; rewrite W; left; auto).
        unfold blockedb in Bw. destruct (at_ (procs st' w)) as [| |g b| |] eqn:Ew; try discriminate.
        assert (Nw : w <> p) by (intros ->; congruence).
        cbn [waiters signals procs goto]. split; [reflexivity|]. split; [exact S0|].
        exists g, b. split; [reflexivity|].
        rewrite upd_same. rewrite upd_other by auto. rewrite Ew. reflexivity.
  - exfalso. destruct k; injection E as <-; (eapply K; [reflexivity|reflexivity]).
  - exfalso. destruct k; destruct (is_owner st p); injection E as <-; (eapply K; [reflexivity|reflexivity]).
Qed.

Lemma free_when_idle prog h st : gentle (new_lock prog) h -> run (new_lock prog) h = Ok st ->
  (forall p, ~ busy st p) -> signals st = 1 /\ waiters st = [].
Proof. intros G H N. apply sound_free; auto. eapply run_sound; [apply sound_init|exact G|exact H]. Qed.

Lemma waits_for prog h st p : gentle (new_lock prog) h -> run (new_lock prog) h = Ok st ->
  waits st p -> exists q, q <> p /\ busy st q /\ exists st', step st (Step q) = Ok st'.
Proof.
  intros G H W. assert (S : sound st) by (eapply run_sound; [apply sound_init|exact G|exact H]).
  destruct (sound_waits _ _ S W) as (q & N & B). exists q. split; auto. split; auto.
  apply busy_steps; auto. apply S.
Qed.

(** ** A lock that is lost *)

Definition dead (st : lock) : Prop :=
  inv st /\ signals st = 0 /\ forall p, busyb (procs st p) = false.

Lemma dead_step st p st' q : dead st -> step st (Step p) = Ok st' ->
  dead st' /\ (waits st q -> waits st' q).
Proof.
  intros (I & S0 & NB) H. pose proof (step_inv _ _ _ I H) as I'.
  pose proof I as (I1 & I2 & I3 & I4 & I5 & I6 & I7). cbn in H. unfold step_proc in H.
  assert (K : forall c s, st' = goto st p c s -> at_ (procs st p) <> Blocked false [] ->
    (forall g b, at_ (procs st p) <> Blocked g b) -> busyb (mkP c s) = false ->
    dead st' /\ (waits st q -> waits st' q)).
  { intros c s -> _ NBl B. split.
    - split; [exact I'|]. split; [exact S0|]. intros x. cbn. destruct (Z.eq_dec x p) as [->|Nx].
      + rewrite upd_same. auto.
      + rewrite upd_other by auto. auto.
    - intros (g & b & W). exists g, b. cbn. rewrite upd_other; auto. intros ->. eapply NBl; eauto. }
  pose proof (NB p) as Bp. unfold busyb in Bp. apply orb_false_iff in Bp as (Ip & Gp).
  destruct (at_ (procs st p)) as [|g b|g b|ok b|] eqn:E.
  - assert (Z0 : forall c s, outers s = outers (stack (procs st p)) ->
      (c = Normal \/ exists g b, c = Want g b) -> busyb (mkP c s) = false).
    { intros c s O C. unfold busyb, insideb, granted in *. cbn [at_ stack]. rewrite O, Ip.
      destruct C as [-> | (g & b & ->)]; auto. }
    destruct (stack (procs st p)) as [|[k [|[|b] r]] t] eqn:Es; [discriminate| | |].
    + destruct k.
      * injection H as <-. eapply K; [reflexivity|discriminate|discriminate|]. apply Z0; auto.
      * injection H as <-. eapply K; [reflexivity|discriminate|discriminate|]. apply Z0; auto.
      * unfold insideb in Ip. rewrite Es in Ip. discriminate.
    + assert (H' : Ok (goto st p Normal ((k, r) :: t)) = Ok st') by (destruct k; exact H).
      injection H' as <-. eapply K; [reflexivity|discriminate|discriminate|]. apply Z0; auto. destruct k; auto.
    + assert (IO : is_owner st p = false).
      { destruct (is_owner st p) eqn:IO; auto. apply is_owner_iff, I4 in IO. congruence. }
      rewrite IO in H.
      assert (H' : Ok (goto st p (Want false b) ((k, r) :: t)) = Ok st') by (destruct k; exact H).
      injection H' as <-. eapply K; [reflexivity|discriminate|discriminate|]. apply Z0; [destruct k; auto|].
      right. eauto.
  - rewrite S0 in H. cbn in H. injection H as <-. rewrite <- S0 in I'.
    split.
    + split; [rewrite S0 in I'; exact I'|]. split; [reflexivity|]. intros x. cbn. destruct (Z.eq_dec x p) as [->|Nx].
      * rewrite upd_same. unfold busyb, insideb, granted in *. cbn [at_ stack]. rewrite Ip. auto.
      * rewrite upd_other by auto. auto.
    + intros (g' & b' & W). exists g', b'. cbn. rewrite upd_other; auto. intros ->. congruence.
  - discriminate.
  - destruct ok.
    + unfold granted in Gp. rewrite E in Gp. discriminate.
    + injection H as <-. eapply K; [reflexivity|discriminate|discriminate|].
      unfold busyb, insideb, granted in *. cbn [at_ stack]. rewrite Ip. auto.
  - unfold granted in Gp. rewrite E in Gp. discriminate.
Qed.

Definition is_step (e : event) : bool := match e with Step _ => true | _ => false end.

Lemma dead_run h : forall st st' q, dead st -> forallb is_step h = true -> run st h = Ok st' ->
  dead st' /\ (waits st q -> waits st' q).
Proof.
  induction h as [|e h IH]; intros st st' q D P H; cbn in H, P.
  - injection H as <-. auto.
  - apply andb_true_iff in P as (Pe & P). destruct e as [p|p|p|p]; try discriminate.
    cbn [step] in H. destruct (step_proc st p) as [st1| | | |] eqn:E; cbn in H; try discriminate.
    destruct (dead_step st p st1 q D E) as (D1 & W1). destruct (IH _ _ q D1 P H) as (D2 & W2).
    split; auto.
Qed.

(** Processes 1 and 2 each execute one critical section. *)
Definition two : Z -> list act := fun p => if (p =? 1) || (p =? 2) then [Critical [Work]] else [].

(** Process 1 enters, 2 waits; 1 reaches the end of its section and is terminated just
    before it signals the semaphore. *)
Definition cut : list event :=
  [Step 1; Step 1; Step 1; Step 2; Step 2; Step 1; Step 1; Terminate 1].

(** Process 1 enters, 2 waits; 2 is interrupted and waits again; 1 leaves. *)
Definition intr : list event :=
  [Step 1; Step 1; Step 1; Step 2; Step 2; Interrupt 2; Step 2; Step 1; Step 1; Step 1;
   (* 2 has the signal, but skips its section; then 1 wants to enter again *)
   Step 2; Step 2].

Definition three : Z -> list act := fun p => if (p =? 1) || (p =? 2) || (p =? 3) then [Critical [Work]] else [].
(** As [intr]; then process 3 asks for the lock. *)
Definition intr3 : list event := intr ++ [Step 3; Step 3].

Lemma others_idle prog h st p : run (new_lock prog) h = Ok st ->
  (forall e, In e h -> match e with Step q | Interrupt q | Terminate q | Resume q => q <> p end) ->
  procs st p = procs (new_lock prog) p.
Proof.
  intros H0. destruct (run_init_inv prog [] (new_lock prog) eq_refl) as (I & _).
  assert (B0 : blockedb (procs (new_lock prog) p) = false) by reflexivity.
  revert H0 I B0. generalize (new_lock prog) as s0. clear prog.
  induction h as [|e h IH]; intros s0 H I B0 N; cbn in H.
  - injection H as <-. auto.
  - destruct (step s0 e) as [s1| | | |] eqn:E; cbn in H; try discriminate.
    assert (X : procs s1 p = procs s0 p).
    { pose proof I as (_ & _ & _ & _ & I5 & _).
      pose proof (N e (or_introl eq_refl)) as Ne. destruct e as [q|q|q|q]; cbn in E.
      - unfold step_proc in E. destruct (at_ (procs s0 q)) as [|g b|g b|ok b|] eqn:Eq.
        + destruct (stack (procs s0 q)) as [|[k [|[|b] r]] t]; [discriminate| | |].
          * destruct k; injection E as <-; cbn; apply upd_other; auto.
          * destruct k; injection E as <-; cbn; apply upd_other; auto.
          * destruct k; destruct (is_owner s0 q); injection E as <-; cbn; apply upd_other; auto.
        + destruct (0 <? signals s0); injection E as <-; cbn; apply upd_other; auto.
        + discriminate.
        + destruct ok; injection E as <-; cbn; apply upd_other; auto.
        + injection E as <-. unfold signal. cbn [waiters goto]. destruct (waiters s0) as [|w r] eqn:W.
          * cbn. apply upd_other; auto.
          * assert (w <> p).
            { intros ->. assert (In p (p :: r)) as Hp by (left; auto).
              apply I5 in Hp. congruence. }
            cbn. rewrite upd_other by auto. apply upd_other; auto.
      - injection E as <-. unfold interrupt. destruct (at_ (procs s0 q)); auto. cbn. apply upd_other; auto.
      - injection E as <-. unfold terminate. destruct (at_ (procs s0 q)) as [| | |[]|]; cbn; apply upd_other; auto.
      - injection E as <-. unfold resume. destruct (at_ (procs s0 q)); auto. cbn. apply upd_other; auto. }
    rewrite (IH s1 H (step_inv _ _ _ I E)); [exact X| |].
    + rewrite X. auto.
    + intros e0 He. apply N. right. auto.
Qed.

(** The processes are 1, 2 and 3. *)
Lemma dead_from prog h st : run (new_lock prog) h = Ok st ->
  forallb (fun e => match e with Step q | Interrupt q | Terminate q | Resume q => (q =? 1) || (q =? 2) || (q =? 3) end) h = true ->
  (signals st =? 0) && negb (busyb (procs st 1)) && negb (busyb (procs st 2)) && negb (busyb (procs st 3)) = true ->
  dead st.
Proof.
  intros H A B. rewrite !andb_true_iff, !negb_true_iff in B. destruct B as (((S & B1) & B2) & B3).
  destruct (run_init_inv _ _ _ H) as (I & _).
  split; [exact I|]. split; [lia|]. intros p.
  destruct (Z.eq_dec p 1) as [->|N1]; auto. destruct (Z.eq_dec p 2) as [->|N2]; auto.
  destruct (Z.eq_dec p 3) as [->|N3]; auto.
  rewrite (others_idle _ _ _ p H); [reflexivity|].
  intros e He. rewrite forallb_forall in A. specialize (A e He). destruct e; lia.
Qed.

Definition checkb (o : outcome lock) (f : lock -> bool) : bool := match o with Ok st => f st | _ => false end.

Lemma cut_dead : exists st, run (new_lock two) cut = Ok st /\ dead st /\ waits st 2.
Proof.
  assert (C : checkb (run (new_lock two) cut) (fun st =>
    (signals st =? 0) && negb (busyb (procs st 1)) && negb (busyb (procs st 2)) && negb (busyb (procs st 3))) = true)
    by (vm_compute; reflexivity).
  assert (W : checkb (run (new_lock two) cut) (fun st => blockedb (procs st 2)) = true) by (vm_compute; reflexivity).
  destruct (run (new_lock two) cut) as [st| | | |] eqn:E; try discriminate.
  exists st. split; [reflexivity|]. split.
  - eapply dead_from; [exact E|reflexivity|exact C].
  - cbn in W. unfold blockedb in W. unfold waits. destruct (at_ (procs st 2)) as [| |g b| |]; try discriminate. eauto.
Qed.

Lemma intr_dead : exists st, run (new_lock three) intr3 = Ok st /\ dead st /\ waits st 3 /\
  stack (procs st 1) = [(Base, [])] /\ stack (procs st 2) = [].
Proof.
  assert (C : checkb (run (new_lock three) intr3) (fun st =>
    (signals st =? 0) && negb (busyb (procs st 1)) && negb (busyb (procs st 2)) && negb (busyb (procs st 3))) = true)
    by (vm_compute; reflexivity).
  assert (W : checkb (run (new_lock three) intr3) (fun st => blockedb (procs st 3)) = true) by (vm_compute; reflexivity).
  assert (S : checkb (run (new_lock three) intr3) (fun st =>
     match stack (procs st 1), stack (procs st 2) with [(Base, [])], [] => true | _, _ => false end) = true)
     by (vm_compute; reflexivity).
  destruct (run (new_lock three) intr3) as [st| | | |] eqn:E; try discriminate.
  exists st. split; [reflexivity|]. split; [|split].
  - eapply dead_from; [exact E|reflexivity|exact C].
  - cbn in W. unfold blockedb in W. unfold waits. destruct (at_ (procs st 3)) as [| |g b| |]; try discriminate. eauto.
  - cbn in S. destruct (stack (procs st 1)) as [|[[] []] []]; try discriminate.
    destruct (stack (procs st 2)); try discriminate. auto.
Qed.

(** ** Without interrupts and resume no section is skipped *)

Definition firm (q : proc) : Prop :=
  match at_ q with Want g _ | Blocked g _ => g = false | Got ok _ => ok = true | _ => True end.

Definition calm (e : event) : bool := match e with Step _ | Terminate _ => true | _ => false end.

Lemma firm_upd (f : Z -> proc) p Q : (forall q, firm (f q)) -> firm Q -> forall q, firm (upd f p Q q).
Proof.
  intros F H q. destruct (Z.eq_dec q p) as [->|N]; [rewrite upd_same|rewrite upd_other]; auto.
Qed.

Lemma step_firm st e st' : (forall p, firm (procs st p)) -> calm e = true -> step st e = Ok st' ->
  forall p, firm (procs st' p).
Proof.
  intros F C H. destruct e as [p|p|p|p]; try discriminate; cbn in H.
  - pose proof (F p) as Fp. unfold firm in Fp. unfold step_proc in H.
    destruct (at_ (procs st p)) as [|g b|g b|ok b|] eqn:E.
    + destruct (stack (procs st p)) as [|[k [|[|b] r]] t]; [discriminate| | |].
      * destruct k; injection H as <-; (apply firm_upd; [auto|exact Logic.I]).
      * destruct k; injection H as <-; (apply firm_upd; [auto|exact Logic.I]).
      * destruct k; destruct (is_owner st p); injection H as <-; (apply firm_upd; [auto|solve [exact Logic.I|reflexivity]]).
    + subst g. destruct (0 <? signals st); injection H as <-; (apply firm_upd; [auto|reflexivity]).
    + discriminate.
    + subst ok. injection H as <-. apply firm_upd; [auto|exact Logic.I].
    + injection H as <-.
      assert (F1 : forall q, firm (procs (goto st p Normal (stack (procs st p))) q)).
      { apply firm_upd; [auto|exact Logic.I]. }
      unfold signal. destruct (waiters _) as [|w r]; [exact F1|]. apply firm_upd; [auto|].
      pose proof (F1 w) as Fw. unfold firm in Fw |- *.
      destruct (at_ (procs (goto st p Normal (stack (procs st p))) w)) eqn:Ew; rewrite ?Ew; auto.
      subst again. reflexivity.
  - injection H as <-. unfold terminate.
    destruct (at_ (procs st p)) as [|g b|g b|[] b|]; (apply firm_upd; [auto|exact Logic.I]).
Qed.

Lemma run_firm h : forall st st', (forall p, firm (procs st p)) -> forallb calm h = true ->
  run st h = Ok st' -> forall p, firm (procs st' p).
Proof.
  induction h as [|e h IH]; intros st st' F C H; cbn in H, C.
  - injection H as <-. auto.
  - apply andb_true_iff in C as (Ce & C).
    destruct (step st e) as [st1| | | |] eqn:E; cbn in H; try discriminate.
    eapply IH; [|exact C|exact H]. eapply step_firm; eauto.
Qed.

Lemma not_skipped prog h st p b : forallb calm h = true -> run (new_lock prog) h = Ok st ->
  at_ (procs st p) <> Got false b.
Proof.
  intros C H E. assert (F : forall p, firm (procs st p)).
  { eapply run_firm; [|exact C|exact H]. intros q. exact Logic.I. }
  specialize (F p). unfold firm in F. rewrite E in F. discriminate.
Qed.
