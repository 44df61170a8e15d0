(** Theorems on the scheduler: C22, C23, C24, C50. *)
From Verif Require Import Base Sched SchedSpec SchedLists SchedProofs SchedOps SchedExec SchedHist SchedFindings.
Local Open Scope Z_scope.

(** C22, the count: when nobody sends notify, notifyAll or lock to the semaphore, initial signals plus signals
    sent equals waits completed plus pending signals. *)
Theorem C22_signals_counted : forall p k sig h t st s,
  legal k sig -> run (initial p k sig) h = Ok (t, st) -> nprio < s -> existsb (uncounted s) h = false ->
  signals (sems (initial p k sig) s) + total_sent s h = total_granted s t + signals (sems st s).
Proof.
  intros p k sig h t st s L H Hs U. exact (run_counted s h Hs U _ _ _ (initial_good p k sig L) H).
Qed.
Print Assumptions C22_signals_counted.
Example C22_signals_counted_ex :
  let h := [New 101 5; Resume 101; Wait 10; Signal 10; Signal 10; Interrupt [10; 11] false; Wait 10] in
  legal 4 (fun _ => 1) /\ existsb (uncounted 10) h = false /\ total_sent 10 h = 3 /\
  match run (initial 100 4 (fun _ => 1)) h with
  | Ok (t, st) => total_granted 10 t = 2 /\ signals (sems st 10) = 2 | _ => False end.
Proof. split; [split; [unfold nprio; lia|intros; lia]|]. vm_compute. auto. Qed.

(** C22, who waits: processes wait only while the count is zero, which is never negative. *)
Theorem C22_no_excess : forall p k sig h t st s,
  legal k sig -> run (initial p k sig) h = Ok (t, st) -> nprio < s ->
  0 <= signals (sems st s) /\ (0 < signals (sems st s) -> queue st s = []).
Proof.
  intros p k sig h t st s L H Hs. pose proof (run_good h _ _ _ (initial_good p k sig L) H) as G.
  exact (conj (good_nonneg st s G) (good_excess st s G Hs)).
Qed.
Print Assumptions C22_no_excess.
Example C22_no_excess_ex :
  match run (initial 100 4 (fun _ => 0)) [New 101 5; Resume 101; Wait 10; Signal 11] with
  | Ok (t, st) => signals (sems st 11) = 1 /\ queue st 11 = [] /\ signals (sems st 10) = 0 /\ queue st 10 = [101]
  | _ => False end.
Proof. vm_compute. auto. Qed.

(** C22, the wait: it goes on, and takes a signal, or blocks, and it blocks only without signals. *)
Theorem C22_wait : forall p k sig h t st s me g st',
  legal k sig -> run (initial p k sig) h = Ok (t, st) -> scheduled st = Some me -> nprio < s ->
  step st (Wait s) = Ok (g, st') ->
  (0 < signals (sems st s) -> g = [(s, me)] /\ signals (sems st' s) = signals (sems st s) - 1 /\ queue st' s = queue st s) /\
  (signals (sems st s) = 0 -> g = [] /\ signals (sems st' s) = 0 /\ queue st' s = queue st s ++ [me]).
Proof.
  intros p k sig h t st s me g st' L H Sm Hs X.
  exact (step_wait st s me g st' (run_good h _ _ _ (initial_good p k sig L) H) Sm Hs X).
Qed.
Print Assumptions C22_wait.
Example C22_wait_ex :
  match run (initial 100 4 (fun _ => 0)) [New 101 5; Resume 101] with
  | Ok (t, st) => scheduled st = Some 101 /\
      match step st (Wait 10) with Ok (g, st') => g = [] /\ queue st' 10 = [101] | _ => False end
  | _ => False end.
Proof. vm_compute. auto. Qed.

(** C22, the answer: a wait that completes answers the semaphore to the process that waited for it; in every
    other operation too the process that is woken up finds it on its stack. *)
Theorem C22_answer : forall p k sig h t st o g st' s q,
  legal k sig -> run (initial p k sig) h = Ok (t, st) -> step st o = Ok (g, st') -> In (s, q) g ->
  top (procs st' q) = Some s.
Proof.
  intros p k sig h t st o g st' s q L H X Y. destruct (step_sched _ _ _ X) as (me & Sm).
  exact (step_answer st o g st' me s q (run_good h _ _ _ (initial_good p k sig L) H) Sm X Y).
Qed.
Print Assumptions C22_answer.
Example C22_answer_ex :
  match run (initial 100 4 (fun _ => 0)) [New 101 5; Resume 101; Wait 10] with
  | Ok (t, st) => match step st (Signal 10) with
      Ok (g, st') => g = [(10, 101)] /\ top (procs st' 101) = Some 10 | _ => False end
  | _ => False end.
Proof. vm_compute. auto. Qed.

(** C24, first come first served: every operation but waitAfterSignalling: (see C50) changes the semaphores as
    the specification with queues does, and grants the waits that it grants. *)
Theorem C24_fifo : forall p k sig h t st me o g st',
  legal k sig -> run (initial p k sig) h = Ok (t, st) -> scheduled st = Some me ->
  is_wait_after o = false -> step st o = Ok (g, st') ->
  g = fst (semspec me o (signals_of st)) /\ sems_are st' (snd (semspec me o (signals_of st))).
Proof.
  intros p k sig h t st me o g st' L H Sm W X.
  destruct (step_spec st o g st' me (run_good h _ _ _ (initial_good p k sig L) H) Sm X) as (w & E & A & B).
  rewrite (E W) in A. exact (conj B A).
Qed.
Print Assumptions C24_fifo.
Example C24_fifo_ex :
  match run (initial 100 4 (fun _ => 0)) [New 101 5; Resume 101; Wait 10; New 102 5; Resume 102; Wait 10] with
  | Ok (t, st) => queue st 10 = [101; 102] /\
      match step st (Signal 10) with Ok (g, st') => g = [(10, 101)] /\ queue st' 10 = [102] | _ => False end
  | _ => False end.
Proof. vm_compute. auto. Qed.

(** C24, yield: it puts the active process behind all the others of its priority, that keep their order; if no
    process of higher priority is ready, the first of the others runs. *)
Theorem C24_yield : forall p k sig h t st me g st',
  legal k sig -> run (initial p k sig) h = Ok (t, st) -> settled st -> scheduled st = Some me -> ready st me ->
  step st Yield = Ok (g, st') ->
  let mine := queue st (priority (procs st me)) in
  queue st' (priority (procs st me)) = others me mine ++ [me] /\
  ((forall j, priority (procs st me) < j <= nprio -> queue st j = []) ->
   forall x r, others me mine = x :: r -> scheduled st' = Some x).
Proof.
  intros p k sig h t st me g st' L H ST Sm R X.
  exact (step_yield st g st' me (run_good h _ _ _ (initial_good p k sig L) H) ST Sm R X).
Qed.
Print Assumptions C24_yield.
Example C24_yield_ex :
  match run (initial 100 4 (fun _ => 0)) [New 101 4; Resume 101; New 102 4; Resume 102] with
  | Ok (t, st) => scheduled st = Some 102 /\ queue st 4 = [102; 100; 101] /\
      match step st Yield with Ok (g, st') => scheduled st' = Some 100 /\ queue st' 4 = [100; 101; 102] | _ => False end
  | _ => False end.
Proof. vm_compute. auto. Qed.

(** C23, lists: no process is twice in a list or in two lists. *)
Theorem C23_lists : forall p k sig h t st,
  legal k sig -> run (initial p k sig) h = Ok (t, st) ->
  (forall l, NoDup (queue st l)) /\
  (forall x l l', In x (queue st l) -> In x (queue st l') -> l = l').
Proof.
  intros p k sig h t st L H. exact (good_lists st (run_good h _ _ _ (initial_good p k sig L) H)).
Qed.
Print Assumptions C23_lists.
Example C23_lists_ex :
  match run (initial 100 4 (fun _ => 0)) [New 101 4; Resume 101; Wait 10] with
  | Ok (t, st) => queue st 4 = [100] /\ queue st 10 = [101] | _ => False end.
Proof. vm_compute. auto. Qed.

(** C23, progress: the links never get into a state that the code does not handle; what stops a history is an
    argument that does not exist, a wait with nothing else to run, or the lack of an active process. *)
Theorem C23_progress : forall p k sig h,
  legal k sig ->
  match run (initial p k sig) h with
  | Ok _ | Err => True
  | UB => exists h1 h2 t st, h = h1 ++ h2 /\ run (initial p k sig) h1 = Ok (t, st) /\ scheduled st = None
  | Abort | OutOfFuel => False
  end.
Proof. intros p k sig h L. exact (run_progress h _ (initial_good p k sig L)). Qed.
Print Assumptions C23_progress.
Example C23_progress_ex : legal 4 (fun _ => 0) /\
  match run (initial 100 4 (fun _ => 0)) [New 101 4; Resume 101; Terminate 100; Yield] with Ok (_, st) => scheduled st = Some 101 | _ => False end.
Proof. split; [split; [unfold nprio; lia|intros; lia]|]. vm_compute. auto. Qed.

(** C23 as stated is false: yield lets a process of lower priority run. *)
Theorem C23_refuted : exists p k sig h t st a b,
  legal k sig /\ run (initial p k sig) h = Ok (t, st) /\ scheduled st = Some a /\ ready st b /\
  priority (procs st a) < priority (procs st b).
Proof.
  destruct yield_lower as (t & st & H & S1 & P1 & R1 & P2).
  exists 100, 4, (fun _ => 0), [New 101 3; Resume 101; Yield], t, st, 101, 100.
  split; [split; [unfold nprio; lia|intros; lia]|]. split; [exact H|]. split; [exact S1|]. split; [exact R1|].
  rewrite P1, P2. lia.
Qed.
Print Assumptions C23_refuted.
(** The end of a time slice does the same. *)
Theorem C23_time_slice_refuted : exists h t st a b,
  run i0 (h ++ [Interrupt [] true]) = Ok (t, st) /\ existsb rotates h = false /\
  scheduled st = Some a /\ ready st b /\ priority (procs st a) < priority (procs st b).
Proof.
  destruct slice_lower as (t & st & H & S1 & P1 & R1 & P2).
  exists [New 101 3; Resume 101], t, st, 101, 100.
  split; [exact H|]. split; [reflexivity|]. split; [exact S1|]. split; [exact R1|]. rewrite P1, P2. lia.
Qed.
Print Assumptions C23_time_slice_refuted.
(** So does lowering the priority of the active process: it goes on running. *)
Theorem C23_lowering_refuted : exists h a n t st b,
  run i0 (h ++ [Priority a n]) = Ok (t, st) /\ existsb rotates h = false /\
  scheduled st = Some a /\ ready st b /\ priority (procs st a) < priority (procs st b).
Proof.
  destruct lowered_runs as (t & st & H & S1 & P1 & R1 & P2).
  exists [New 101 5; Resume 101], 101, 3, t, st, 100.
  split; [exact H|]. split; [reflexivity|]. split; [exact S1|]. split; [exact R1|]. rewrite P1, P2. lia.
Qed.
Print Assumptions C23_lowering_refuted.
(** A process forked at a low priority may run, at a wait, before a ready process of higher priority: it stays in
    the list of the priority at which it starts. *)
Theorem C23_fork_refuted : exists h b n s t st a,
  run i0 (h ++ [New b 9; Resume b; Assign b n; Yield] ++ [Wait s]) = Ok (t, st) /\ existsb rotates h = false /\
  scheduled st = Some b /\ ready st a /\ priority (procs st b) < priority (procs st a).
Proof.
  destruct fork_order as (t & st & H & S1 & P1 & R1 & P2).
  exists [New 101 4; Resume 101], 102, 3, 10, t, st, 101.
  split; [exact H|]. split; [reflexivity|]. split; [exact S1|]. split; [exact R1|]. rewrite P1, P2. lia.
Qed.
Print Assumptions C23_fork_refuted.
(** A process woken up by an asynchronous signal when the time slice ends can be lost. *)
Theorem C23_lost_refuted : exists p k sig h t st x,
  legal k sig /\ run (initial p k sig) h = Ok (t, st) /\ no_ops_against x h = true /\ lost st x.
Proof.
  destruct process_lost as (t & st & H & N & X).
  exists 100, 4, (fun _ => 0), lost_history, t, st, 101.
  split; [split; [unfold nprio; lia|intros; lia]|]. exact (conj H (conj N X)).
Qed.
Print Assumptions C23_lost_refuted.
(** What remains of the first part: histories of signals, waits, suspensions, resumptions, terminations and new
    processes.  Missing: yield, time slices, priority changes, waitAfterSignalling:, for which it is false. *)
Theorem C23_priority_partial : forall p k sig h t st a x,
  legal k sig -> existsb rotates h = false -> run (initial p k sig) h = Ok (t, st) ->
  scheduled st = Some a -> ready st x -> priority (procs st x) <= priority (procs st a).
Proof. intros p k sig h t st a x L U H. exact (run_priority p k sig h t st L U H a x). Qed.
Print Assumptions C23_priority_partial.
Example C23_priority_partial_ex :
  let h := [New 101 5; Resume 101; Wait 10; New 102 3; Resume 102; Signal 10; Suspend 101] in
  existsb rotates h = false /\
  match run (initial 100 4 (fun _ => 0)) h with
  | Ok (t, st) => scheduled st = Some 100 /\ queue st 3 = [102] | _ => False end.
Proof. vm_compute. auto. Qed.
(** What remains of the last part: after any history, an operation other than the end of a time slice together
    with asynchronous signals keeps every ready process ready, unless it waits, is suspended or is terminated. *)
Theorem C23_not_lost_partial : forall p k sig h t st o g st' x,
  legal k sig -> run (initial p k sig) h = Ok (t, st) -> step st o = Ok (g, st') -> may_lose o = false -> ready st x ->
  ready st' x \/ (exists s, waiting st' x s /\ (o = Wait s \/ exists s2, o = WaitAfter s s2))
  \/ o = Suspend x \/ o = Terminate x.
Proof.
  intros p k sig h t st o g st' x L H.
  exact (step_not_lost st o g st' x (run_good h _ _ _ (initial_good p k sig L) H)).
Qed.
Print Assumptions C23_not_lost_partial.
Example C23_not_lost_partial_ex :
  match run (initial 100 4 (fun _ => 0)) [New 101 3; Resume 101; New 102 4; Resume 102] with
  | Ok (t, st) => queue st 3 = [101] /\ match step st (Priority 101 5) with
      Ok (g, st') => queue st' 5 = [101] /\ scheduled st' = Some 101 | _ => False end
  | _ => False end.
Proof. vm_compute. auto. Qed.

(** C50 as stated is false: if the signal wakes up a process of the same or of a higher priority, it is this
    process that is made to wait. *)
Theorem C50_refuted : exists p k sig h t st me x s s2 g st',
  legal k sig /\ run (initial p k sig) h = Ok (t, st) /\ scheduled st = Some me /\ me <> x /\
  waiting st x s2 /\ s <> s2 /\ signals (sems st s) = 0 /\
  step st (WaitAfter s s2) = Ok (g, st') /\ g = [(s2, x)] /\ waiting st' x s /\ ready st' me.
Proof.
  destruct wait_after_other as (t & st & g & st' & H & A).
  exists 100, 4, (fun _ => 0), [New 102 4; Resume 102; New 101 5; Resume 101; Wait 10], t, st, 100, 101, 11, 10, g, st'.
  split; [split; [unfold nprio; lia|intros; lia]|]. split; [exact H|].
  destruct A as (A1 & A2 & A3 & A4 & A5 & A6 & A7).
  split; [exact A1|]. split; [discriminate|]. split; [exact A2|]. split; [discriminate|].
  exact (conj A3 (conj A4 (conj A5 (conj A6 A7)))).
Qed.
Print Assumptions C50_refuted.
(** What remains: nobody waits for the second semaphore, or the first that does has a lower priority. *)
Theorem C50_partial : forall p k sig h t st me s s2 g st',
  legal k sig -> run (initial p k sig) h = Ok (t, st) -> scheduled st = Some me ->
  step st (WaitAfter s s2) = Ok (g, st') -> s <> s2 -> signals (sems st s) = 0 ->
  (forall x r, queue st s2 = x :: r -> priority (procs st x) < priority (procs st me)) ->
  waiting st' me s.
Proof.
  intros p k sig h t st me s s2 g st' L H.
  intros Sm. exact (step_wait_after st s s2 g st' me (run_good h _ _ _ (initial_good p k sig L) H) Sm).
Qed.
Print Assumptions C50_partial.
Example C50_partial_ex :
  match run (initial 100 4 (fun _ => 0)) [New 101 4; Resume 101; Wait 10; New 102 5; Resume 102] with
  | Ok (t, st) => scheduled st = Some 102 /\ queue st 10 = [101] /\ match step st (WaitAfter 11 10) with
      Ok (g, st') => g = [(10, 101)] /\ queue st' 11 = [102] | _ => False end
  | _ => False end.
Proof. vm_compute. auto. Qed.
