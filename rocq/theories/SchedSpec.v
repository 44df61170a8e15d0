(** What the scheduler is supposed to do, independently of the links.

    [queue st l] is what a debugger would print by following the links of a
    semaphore or of a ready list. [semspec] says what each operation does to the
    semaphores: a counter and a first-in first-out queue each. *)
From Verif Require Import Base Sched.
Local Open Scope Z_scope.

Fixpoint walk (fuel : nat) (st : vm) (cur : option Z) : list Z :=
  match cur, fuel with
  | Some p, S k => p :: walk k st (next_link (procs st p))
  | _, _ => []
  end.
Definition queue (st : vm) (l : Z) : list Z :=
  walk (length (created st)) st (first_link (sems st l)).

(** A process is ready (or running) when it is in one of the ready lists. *)
Definition ready (st : vm) (p : Z) : Prop :=
  exists k, 1 <= k <= nprio /\ In p (queue st k).
Definition waiting (st : vm) (p s : Z) : Prop := nprio < s /\ In p (queue st s).

(** Counters and queues. *)
Definition sstate := ((Z -> Z) * (Z -> list Z))%type.
Definition put {A} (f : Z -> A) (k : Z) (v : A) : Z -> A :=
  fun x => if x =? k then v else f x.

(** A signal wakes up the first process in the queue, or is counted. *)
Definition spec_signal (s : Z) (counted : bool) (x : sstate) : list grant * sstate :=
  match snd x s with
  | [] => ([], (if counted then put (fst x) s (fst x s + 1) else fst x, snd x))
  | p :: r => ([(s, p)], (fst x, put (snd x) s r))
  end.

(** A wait takes a signal, or queues up the process. *)
Definition spec_wait (me s : Z) (x : sstate) : list grant * sstate :=
  if 0 <? fst x s then ([(s, me)], (put (fst x) s (fst x s - 1), snd x))
  else ([], (fst x, put (snd x) s (snd x s ++ [me]))).

Fixpoint spec_signals (ss : list Z) (x : sstate) : list grant * sstate :=
  match ss with
  | [] => ([], x)
  | s :: r =>
      let '(g1, x1) := spec_signal s true x in
      let '(g2, x2) := spec_signals r x1 in
      (g1 ++ g2, x2)
  end.

(** The process [p] leaves the queue it is in. *)
Definition spec_leave (p : Z) (x : sstate) : sstate :=
  (fst x, fun s => filter (fun y => negb (y =? p)) (snd x s)).

(** The effect of an operation of [me] on the semaphores. *)
Definition semspec (me : Z) (o : op) (x : sstate) : list grant * sstate :=
  match o with
  | Wait s => spec_wait me s x
  | Signal s => spec_signal s true x
  | Notify s => spec_signal s false x
  | NotifyAll s => (map (fun p => (s, p)) (snd x s), (fst x, put (snd x) s []))
  | Lock s => ([], (put (fst x) s 0, snd x))
  | WaitAfter s s2 =>
      let '(g1, x1) := spec_signal s2 true x in
      let '(g2, x2) := spec_wait me s x1 in
      (g1 ++ g2, x2)
  | Suspend p | Terminate p | Resume p => ([], spec_leave p x)
  | Yield | Priority _ _ | Assign _ _ | New _ _ => ([], x)
  | Interrupt ss _ => spec_signals ss x
  end.

(** The semaphores of a state. *)
Definition sems_are (st : vm) (x : sstate) : Prop :=
  forall s, nprio < s -> signals (sems st s) = fst x s /\ queue st s = snd x s.

(** ** Counting *)
Definition is_wait_after (o : op) : bool :=
  match o with WaitAfter _ _ => true | _ => false end.

Definition sent (s : Z) (o : op) : Z :=
  match o with
  | Signal s' => if s' =? s then 1 else 0
  | WaitAfter _ s' => if s' =? s then 1 else 0
  | Interrupt ss _ => Z.of_nat (count_occ Z.eq_dec ss s)
  | _ => 0
  end.
Definition granted (s : Z) (g : list grant) : Z :=
  Z.of_nat (length (filter (fun e => fst e =? s) g)).
Definition total_sent (s : Z) (h : list op) : Z :=
  fold_right Z.add 0 (map (sent s) h).
Definition total_granted (s : Z) (t : list (op * list grant)) : Z :=
  fold_right Z.add 0 (map (fun e => granted s (snd e)) t).
(** Operations that discard signals or wake up processes without a signal. *)
Definition uncounted (s : Z) (o : op) : bool :=
  match o with
  | Notify s' | NotifyAll s' | Lock s' => s' =? s
  | _ => false
  end.

(** Operations that may let a process of lower priority run, see the findings. *)
Definition rotates (o : op) : bool :=
  match o with
  | Yield | WaitAfter _ _ | Priority _ _ | Assign _ _ => true
  | Interrupt _ slice => slice
  | _ => false
  end.

(** ** Vocabulary of the theorems *)
(** A program starts with a legal priority, and no semaphore with a debt. *)
Definition legal (k : Z) (sig : Z -> Z) : Prop := 1 <= k <= nprio /\ forall s, 0 <= sig s.

(** The counters and the queues that a state represents. *)
Definition signals_of (st : vm) : sstate := (fun s => signals (sems st s), queue st).

(** Every ready process is in the list of its priority. *)
Definition settled (st : vm) : Prop :=
  forall k p, 1 <= k <= nprio -> In p (queue st k) -> priority (procs st p) = k.
Definition others (p : Z) (l : list Z) : list Z := filter (fun y => negb (y =? p)) l.

(** The operations that may lose a process, see the findings. *)
Definition may_lose (o : op) : bool :=
  match o with Interrupt (_ :: _) true => true | _ => false end.

(** Nobody suspends or terminates [p]. *)
Definition no_ops_against (p : Z) (h : list op) : bool :=
  forallb (fun o => match o with Suspend x | Terminate x => negb (x =? p) | _ => true end) h.

(** A process that exists, lives, and is nowhere: not running, in no ready list
    and in no semaphore. *)
Definition lost (st : vm) (p : Z) : Prop :=
  In p (created st) /\ alive (procs st p) = true /\ scheduled st <> Some p /\
  forall l, ~ In p (queue st l).
