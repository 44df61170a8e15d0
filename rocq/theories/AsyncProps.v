(** Theorems on asynchronous calls: C25. *)
From Verif Require Import Base Async AsyncSpec AsyncProofs AsyncSig.
Local Open Scope Z_scope.

(** C25 for _gst_async_call: in every interleaving, what has been called is a prefix of what each thread has
    posted, in its order: no call is repeated, invented or out of order. *)
Theorem C25_in_order : forall prog h st i,
  run (start prog) h = Ok st -> prefix (sent_by i (log st)) (prog i).
Proof.
  intros prog h st i H. destruct (run_inv prog h _ _ _ _ _ (start_inv prog) H) as (q & v & r & I).
  exact (inv_prefix prog st q v r i I).
Qed.
Print Assumptions C25_in_order.

(** Nor is any lost: whenever the VM goes on draining, all that the threads have posted so far has been called;
    [todo] is what they have not posted yet, including the call being posted. *)
Theorem C25_none_lost : forall prog h st,
  run (start prog) h = Ok st ->
  exists k st', run st (repeat Vm k) = Ok st' /\ vm st' = Away /\ head st' = Tail /\ posters st' = posters st /\
    forall i, sent_by i (log st') ++ todo (posters st' i) = prog i.
Proof.
  intros prog h st H. destruct (run_inv prog h _ _ _ _ _ (start_inv prog) H) as (q & v & r & I).
  exact (vm_drains prog _ st q v r (le_n _) I).
Qed.
Print Assumptions C25_none_lost.

(** And no interleaving, nor any choice of addresses by malloc, uses an entry that has been freed. *)
Theorem C25_memory_safe : forall prog h,
  run (start prog) h = Err \/ exists st, run (start prog) h = Ok st.
Proof. intros prog h. exact (run_never_ub prog h _ _ _ _ (start_inv prog)). Qed.
Print Assumptions C25_memory_safe.
Example C25_threads_ex :
  let prog i := if i =? 0 then [7; 8] else if i =? 1 then [9] else [] in
  let h := [Poster 0 100; Poster 1 200; Poster 0 0; Poster 1 0; Poster 0 0; Poster 1 0; Poster 1 0; Poster 1 0;
            Vm; Vm; Vm; Vm; Vm; Poster 0 100; Vm; Vm] in
  match run (start prog) h with Ok st => log st = [(0, 7); (1, 9)] /\ at_ (posters st 0) = Link 100 | _ => False end.
Proof. vm_compute. auto. Qed.

(** C25 as stated is false of _gst_async_call_internal, which signal handlers and the garbage collector use: two
    posters, one of which interrupts the other, lose a call; both have returned and the queue has been drained. *)
Theorem C25_refuted : exists prog h st e i,
  srun (sstart prog) h = Ok st /\ quiet st /\ In e (prog i) /\ ~ In e (slog st).
Proof.
  destruct (lost_forever (fun _ => [])) as (st & R & P & V & H & L & _).
  exists (fun i => first_posts i ++ []), losing, st, 1, 0.
  split; [exact R|]. split; [exact (conj P (conj V H))|]. split; [left; reflexivity|].
  rewrite L. intros [X|[]]; discriminate.
Qed.
Print Assumptions C25_refuted.
(** After that the entry can never be called again, whatever is posted and however often. *)
Theorem C25_lost_forever_refuted : exists first h e i, In e (first i) /\ forall more, exists st,
  srun (sstart (fun i => first i ++ more i)) h = Ok st /\
  (forall i, stodo (sposters st i) = more i /\ sat (sposters st i) = SIdle) /\ svm st = SAway /\ shead st = Tail /\
  forall h' st', srun st h' = Ok st' -> ~ In e (slog st').
Proof.
  exists first_posts, losing, 1, 0. split; [left; reflexivity|]. intros more.
  destruct (lost_forever more) as (st & R & P & V & H & L & F).
  exists st. exact (conj R (conj P (conj V (conj H F)))).
Qed.
Print Assumptions C25_lost_forever_refuted.

(** What remains: if posts of these entries are not interrupted by other posts and do not run while the VM is on
    another processor, each is called later. *)
Theorem C25_signals_partial : forall prog h st i e t,
  crun (sstart prog) h = Ok st -> stodo (sposters st i) = e :: t ->
  exists st1 k st2 l, solo st i = Ok st1 /\ crun st1 (repeat SVm k) = Ok st2 /\
    svm st2 = SAway /\ shead st2 = Tail /\ slog st2 = slog st ++ l /\ In e l.
Proof. exact atomic_called. Qed.
Print Assumptions C25_signals_partial.
(** And none is called more often than it is posted. *)
Theorem C25_signals_once_partial : forall prog h st e,
  crun (sstart prog) h = Ok st -> (times e (slog st) <= posts e prog h)%nat.
Proof. exact atomic_at_most. Qed.
Print Assumptions C25_signals_once_partial.
Example C25_signals_partial_ex :
  let prog i := if i =? 0 then [1; 1; 1] else [2] in
  match crun (sstart prog) [SPoster 0; SPoster 1; SPoster 0; SVm; SVm; SVm; SVm; SVm] with
  | Ok st => svm st = SCall 1 (Node 2) /\ stodo (sposters st 0) = [1] | _ => False end.
Proof. vm_compute. auto. Qed.
