(** Counterexamples found in the scheduler; the processes are 100, 101, ..., the
    semaphores 10 and 11. *)
From Verif Require Import Base Sched SchedLists SchedProofs SchedSpec SchedOps SchedExec SchedHist.
Local Open Scope Z_scope.

Definition i0 : vm := initial 100 4 (fun _ => 0).

(** Deciding facts about the end of a concrete history. *)
Definition ends (h : list op) (f : vm -> bool) : bool :=
  match run i0 h with Ok (_, st) => f st | _ => false end.
Lemma ends_ex h f : ends h f = true -> exists t st, run i0 h = Ok (t, st) /\ f st = true.
Proof.
  unfold ends. destruct (run i0 h) as [[t st]| | | |]; try discriminate. eauto.
Qed.

Definition readyb (st : vm) (p : Z) : bool :=
  existsb (fun k => existsb (Z.eqb p) (queue st k)) [1;2;3;4;5;6;7;8;9].
Lemma readyb_ok st p : readyb st p = true -> ready st p.
Proof.
  unfold readyb. rewrite existsb_exists. intros (k & Hk & H).
  exists k. split; [unfold nprio; cbn in Hk; lia|].
  apply existsb_exists in H as (x & Hx & E). apply Z.eqb_eq in E. subst. auto.
Qed.
Definition inb (st : vm) (p l : Z) : bool := existsb (Z.eqb p) (queue st l).
Lemma inb_ok st p l : inb st p l = true -> In p (queue st l).
Proof. intros H. apply existsb_exists in H as (x & Hx & E). apply Z.eqb_eq in E. subst. auto. Qed.

(** The active process [a] of priority [k], while [b] of priority [k'] is ready. *)
Definition wrong (a k b k' : Z) (st : vm) : bool :=
  oeq (scheduled st) (Some a) && (priority (procs st a) =? k) && readyb st b
  && (priority (procs st b) =? k').
Lemma wrong_ok a k b k' h : ends h (wrong a k b k') = true ->
  exists t st, run i0 h = Ok (t, st) /\ scheduled st = Some a /\ priority (procs st a) = k /\
    ready st b /\ priority (procs st b) = k'.
Proof.
  intros H. apply ends_ex in H as (t & st & E & H). exists t, st. split; auto.
  unfold wrong in H. rewrite !andb_true_iff in H. destruct H as (((H1 & H2) & H3) & H4).
  apply oeq_true in H1. apply Z.eqb_eq in H2, H4. apply readyb_ok in H3. auto.
Qed.

(** Process 101 is ready at priority 3; the active process, 100, has priority 4
    and yields: 101 runs. *)
Lemma yield_lower :
  exists t st, run i0 [New 101 3; Resume 101; Yield] = Ok (t, st) /\
    scheduled st = Some 101 /\ priority (procs st 101) = 3 /\
    ready st 100 /\ priority (procs st 100) = 4.
Proof. apply wrong_ok. vm_compute. reflexivity. Qed.

(** The same when its time slice is over. *)
Lemma slice_lower :
  exists t st, run i0 [New 101 3; Resume 101; Interrupt [] true] = Ok (t, st) /\
    scheduled st = Some 101 /\ priority (procs st 101) = 3 /\
    ready st 100 /\ priority (procs st 100) = 4.
Proof. apply wrong_ok. vm_compute. reflexivity. Qed.

(** A process that lowers its own priority goes on running. *)
Lemma lowered_runs :
  exists t st, run i0 [New 101 5; Resume 101; Priority 101 3] = Ok (t, st) /\
    scheduled st = Some 101 /\ priority (procs st 101) = 3 /\
    ready st 100 /\ priority (procs st 100) = 4.
Proof. apply wrong_ok. vm_compute. reflexivity. Qed.

(** 101 forks 102 at priority 3 (a process starts at the highest priority, gives
    itself its own and yields, kernel/Process.st:386-395); then 100 waits, and 102
    runs before 101. *)
Lemma fork_order :
  exists t st, run i0 ([New 101 4; Resume 101] ++
                       [New 102 9; Resume 102; Assign 102 3; Yield] ++ [Wait 10]) = Ok (t, st) /\
    scheduled st = Some 102 /\ priority (procs st 102) = 3 /\
    ready st 101 /\ priority (procs st 101) = 4.
Proof. apply wrong_ok. vm_compute. reflexivity. Qed.

(** The signal that wakes up 101 arrives when the time slice of 100 is over. *)
Definition lost_history : list op :=
  [New 101 5; Resume 101; Wait 10; Interrupt [10] true; Yield].
Lemma process_lost :
  exists t st, run i0 lost_history = Ok (t, st) /\
    no_ops_against 101 lost_history = true /\ lost st 101.
Proof.
  assert (G : good i0).
  { apply initial_good. split; [unfold nprio; lia|intros; lia]. }
  assert (B : ends lost_history (fun st =>
     oeq (my_list (procs st 101)) None && is_proc st 101 && alive (procs st 101)
     && oeq (scheduled st) (Some 100)) = true) by (vm_compute; reflexivity).
  apply ends_ex in B as (t & st & E & B).
  rewrite !andb_true_iff in B. destruct B as (((M1 & M2) & M3) & M4).
  apply oeq_true in M1, M4. apply is_proc_In in M2.
  exists t, st. split; auto. split; [reflexivity|].
  pose proof (run_good _ _ _ _ G E) as (q & HJ & _).
  split; auto. split; auto. split; [congruence|].
  intros l X. rewrite (queue_rep _ _ l (proj1 HJ)) in X.
  apply (rep_my _ _ (proj1 HJ)) in X. congruence.
Qed.

(** 101 waits for semaphore 10; 100 sends [s11 waitAfterSignalling: s10]: it is 101
    that is made to wait for 11. *)
Lemma wait_after_other :
  exists t st g st',
    run i0 [New 102 4; Resume 102; New 101 5; Resume 101; Wait 10] = Ok (t, st) /\
    scheduled st = Some 100 /\ waiting st 101 10 /\ signals (sems st 11) = 0 /\
    step st (WaitAfter 11 10) = Ok (g, st') /\ g = [(10, 101)] /\
    waiting st' 101 11 /\ ready st' 100.
Proof.
  assert (B : ends [New 102 4; Resume 102; New 101 5; Resume 101; Wait 10] (fun st =>
     oeq (scheduled st) (Some 100) && inb st 101 10 && (signals (sems st 11) =? 0) &&
     match step st (WaitAfter 11 10) with
     | Ok ([(a, b)], st') => (a =? 10) && (b =? 101) && inb st' 101 11 && readyb st' 100
     | _ => false end) = true) by (vm_compute; reflexivity).
  apply ends_ex in B as (t & st & E & B).
  rewrite !andb_true_iff in B. destruct B as (((M1 & M2) & M3) & M4).
  apply oeq_true in M1. apply inb_ok in M2. apply Z.eqb_eq in M3.
  assert (X : exists st', step st (WaitAfter 11 10) = Ok ([(10, 101)], st') /\
                inb st' 101 11 = true /\ readyb st' 100 = true).
  { clear - M4. destruct (step st (WaitAfter 11 10)) as [[[|[a b] [|]] st']| | | |]; try discriminate M4.
    rewrite !andb_true_iff in M4. destruct M4 as (((N1 & N2) & N3) & N4).
    apply Z.eqb_eq in N1, N2. subst a b. exists st'. auto. }
  destruct X as (st' & F & N3 & N4). apply inb_ok in N3. apply readyb_ok in N4.
  exists t, st, [(10, 101)], st'.
  split; [exact E|]. split; [exact M1|]. split; [split; [unfold nprio; lia|exact M2]|].
  split; [exact M3|]. split; [exact F|]. split; [reflexivity|].
  split; [split; [unfold nprio; lia|exact N3]|]. exact N4.
Qed.
