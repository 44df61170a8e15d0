(** C39, C51, C52: critical sections. *)
From Verif Require Import Base Locks LocksSpec LocksProofs LocksFindings.
Local Open Scope Z_scope.

(** C39.  Whatever the processes do, and however they are scheduled, interrupted,
    resumed or terminated, at most one is inside critical:. *)
Theorem C39_exclusion : forall prog h st p q,
  run (new_lock prog) h = Ok st -> inside st p -> inside st q -> p = q.
Proof. intros; eapply exclusion; [eassumption|left; assumption|left; assumption]. Qed.
Print Assumptions C39_exclusion.

(** The owner never waits for its own lock ... *)
Theorem C39_owner_runs : forall prog h st p,
  run (new_lock prog) h = Ok st -> inside st p ->
  ~ waits st p /\ exists st', step st (Step p) = Ok st'.
Proof.
  intros prog h st p H P. destruct (owner_runs _ _ _ _ H P) as (N & X).
  split; [intros (g & b & W); congruence|exact X].
Qed.
Print Assumptions C39_owner_runs.

(** ... and enters a nested critical: at once, to any depth. *)
Theorem C39_nested : forall prog h st p b k r t,
  run (new_lock prog) h = Ok st -> inside st p ->
  stack (procs st p) = (k, Critical b :: r) :: t ->
  exists st', step st (Step p) = Ok st' /\
    procs st' p = mkP Normal ((Nested, b) :: (k, r) :: t) /\ inside st' p /\
    signals st' = signals st /\ waiters st' = waiters st.
Proof. exact nested. Qed.
Print Assumptions C39_nested.

(** The owner stops being inside only at the end of its outermost section, and then its
    next step frees the lock or passes it to the process that has waited longest. *)
Theorem C39_released_at_outermost : forall prog h st p st',
  run (new_lock prog) h = Ok st -> inside st p ->
  step st (Step p) = Ok st' -> ~ inside st' p ->
  depth st p = 1%nat /\ at_ (procs st' p) = Release /\ signals st' = 0 /\
  exists st2, step st' (Step p) = Ok st2 /\
    match waiters st' with
    | [] => signals st2 = 1 /\ waiters st2 = []
    | w :: r => waiters st2 = r /\ signals st2 = 0 /\
        (exists g b, at_ (procs st' w) = Blocked g b /\ at_ (procs st2 w) = Got (negb g) b)
    end.
Proof. exact outermost. Qed.
Print Assumptions C39_released_at_outermost.

(** When no process is in a section, or about to enter or leave one, the lock is free
    and nobody waits. *)
Theorem C39_free : forall prog h st,
  forallb plain h = true -> run (new_lock prog) h = Ok st ->
  (forall p, ~ busy st p) -> signals st = 1 /\ waiters st = [].
Proof. intros prog h st P. apply free_when_idle. apply plain_gentle. exact P. Qed.
Print Assumptions C39_free.

(** A process waits only for another one, which can go on. *)
Theorem C39_no_deadlock : forall prog h st p,
  forallb plain h = true -> run (new_lock prog) h = Ok st ->
  waits st p -> exists q, q <> p /\ busy st q /\ exists st', step st (Step q) = Ok st'.
Proof. intros prog h st p P. apply waits_for. apply plain_gentle. exact P. Qed.
Print Assumptions C39_no_deadlock.

(** C51.  A process that is terminated releases the lock, except ... *)
Theorem C51_partial : forall prog h st,
  gentle (new_lock prog) h -> run (new_lock prog) h = Ok st ->
  (forall p, ~ busy st p) -> signals st = 1 /\ waiters st = [].
Proof. exact free_when_idle. Qed.
Print Assumptions C51_partial.

(** ... if it is terminated when the section has ended and the signal has not been sent:
    from then on whoever asks for the lock waits forever. *)
Theorem C51_refuted : exists prog h st p,
  forallb (fun e => match e with Interrupt _ => false | _ => true end) h = true /\
  run (new_lock prog) h = Ok st /\ waits st p /\ (forall q, ~ busy st q) /\
  forall h' st', forallb is_step h' = true -> run st h' = Ok st' ->
    waits st' p /\ (forall q, ~ busy st' q).
Proof.
  destruct cut_dead as (st & R & D & W). exists two, cut, st, 2.
  split; [reflexivity|]. split; [exact R|]. split; [exact W|]. split.
  - intros q B. apply busy_iff in B. destruct D as (_ & _ & D). rewrite D in B. discriminate.
  - intros h' st' P H. destruct (dead_run _ _ _ 2 D P H) as ((_ & _ & D') & W'). split; [auto|].
    intros q B. apply busy_iff in B. rewrite D' in B. discriminate.
Qed.
Print Assumptions C51_refuted.

(** C52.  Interrupting a process that waits for the lock, with a block that does not
    touch the lock: the process skips its section, and the lock is lost. *)
Theorem C52_refuted : exists prog h st p,
  forallb (fun e => match e with Terminate _ | Resume _ => false | _ => true end) h = true /\
  run (new_lock prog) h = Ok st /\ waits st p /\ (forall q, ~ busy st q) /\
  forall h' st', forallb is_step h' = true -> run st h' = Ok st' ->
    waits st' p /\ (forall q, ~ busy st' q).
Proof.
  destruct intr_dead as (st & R & D & W & _). exists three, intr3, st, 3.
  split; [reflexivity|]. split; [exact R|]. split; [exact W|]. split.
  - intros q B. apply busy_iff in B. destruct D as (_ & _ & D). rewrite D in B. discriminate.
  - intros h' st' P H. destruct (dead_run _ _ _ 3 D P H) as ((_ & _ & D') & W'). split; [auto|].
    intros q B. apply busy_iff in B. rewrite D' in B. discriminate.
Qed.
Print Assumptions C52_refuted.

(** Without queueInterrupt: and resume no process comes out of the wait without the lock,
    that is, no section is skipped. *)
Theorem C52_partial : forall prog h st p b,
  forallb calm h = true -> run (new_lock prog) h = Ok st -> at_ (procs st p) <> Got false b.
Proof. exact not_skipped. Qed.
Print Assumptions C52_partial.

(** The hypotheses are met. *)
Definition nest : Z -> list act := fun p => if (p =? 1) || (p =? 2) then [Critical [Critical [Work]; Work]] else [].

Example C39_ex :
  checkb (run (new_lock nest) [Step 1; Step 1; Step 1; Step 2; Step 2; Step 1]) (fun st =>
    insideb (procs st 1) && blockedb (procs st 2) && Nat.eqb (depth st 1) 2 && (signals st =? 0)) = true
  /\ checkb (run (new_lock nest)
       [Step 1; Step 1; Step 1; Step 2; Step 2; Step 1; Step 1; Step 1; Step 1; Step 1; Step 1]) (fun st =>
       negb (insideb (procs st 1)) && granted (procs st 2)) = true
  /\ checkb (run (new_lock nest)
       [Step 1; Step 1; Step 1; Step 2; Step 2; Resume 2; Step 2; Step 1; Step 1; Step 1; Step 1; Step 1; Step 1]) (fun st =>
       (signals st =? 1)) = true.
Proof. vm_compute. auto. Qed.

Example C51_ex :
  gentle (new_lock two) [Step 1; Step 1; Step 1; Step 2; Step 2; Terminate 1; Step 1; Step 1; Step 2; Terminate 2; Step 2; Step 2] /\
  checkb (run (new_lock two) [Step 1; Step 1; Step 1; Step 2; Step 2; Terminate 1; Step 1; Step 1; Step 2; Terminate 2; Step 2; Step 2])
    (fun st => signals st =? 1) = true.
Proof. split; [cbn; intuition discriminate|vm_compute; reflexivity]. Qed.
