(** C40: SharedQueue. *)
From Verif Require Import Base SharedQ SharedQSpec SharedQProofs SharedQLog.
Local Open Scope Z_scope.

(** For every schedule of any number of processes, the elements that next has taken from
    the queue are the first of those that nextPut: has put there, in the same order, and
    the others are on the queue. *)
Theorem C40_fifo : forall progs h st os,
  run (new_queue progs) h = Ok (st, os) -> removed os ++ queue st = added os.
Proof. intros progs h st os H. apply (logged_run _ _ _ _ H). Qed.
Print Assumptions C40_fifo.

(** Each process puts the arguments of its nextPut:, in order, each once; and its next
    and peek answer what they found, in order, each once: the answer that is not yet
    returned is the last. *)
Theorem C40_exactly_once : forall progs h st os i p,
  run (new_queue progs) h = Ok (st, os) -> nth_error progs i = Some p ->
  exists t, nth_error (threads st) i = Some t /\
    prefix (added_by i os) (puts p) /\
    prefix (answers t) (found_by i os) /\ (length (found_by i os) <= length (answers t) + 1)%nat /\
    (at_ t = Idle -> answers t = found_by i os /\ added_by i os ++ puts (todo t) = puts p).
Proof.
  intros progs h st os i p H P. destruct (logged_run _ _ _ _ H) as (_ & L).
  destruct (L i p P) as (k & K1 & K2 & K3). rewrite nth_error_map in K1.
  destruct (nth_error (threads st) i) as [t|]; [|discriminate]. injection K1 as <-.
  exists t. split; [reflexivity|]. rewrite K2, K3. unfold key. cbn.
  split; [eexists; reflexivity|]. split; [eexists; reflexivity|].
  rewrite app_length. unfold pending, rest. split.
  - destruct (at_ t) as [| | | | |[]|[]]; cbn; lia.
  - intros ->. rewrite app_nil_r. auto.
Qed.
Print Assumptions C40_exactly_once.

(** removeFirst and first are never sent to an empty collection. *)
Theorem C40_never_empty : forall progs h, run (new_queue progs) h <> UB.
Proof. intros progs h. apply run_ok. apply inv_init. Qed.
Print Assumptions C40_never_empty.

(** peek finds the element that next would take. *)
Theorem C40_peek : forall progs h st a i v b,
  run (new_queue progs) h = Ok (st, a ++ Looked i v :: b) ->
  nth_error (added a) (length (removed a)) = Some v.
Proof.
  intros progs h st a i v b H.
  exact (run_looked progs h _ _ [] _ a i v b (inv_init _) (logged_init _) H eq_refl).
Qed.
Print Assumptions C40_peek.

(** If a process waits for an element and nobody is in the middle of an operation, the
    queue is empty: no wakeup is lost. *)
Theorem C40_waits_only_if_empty : forall progs h st os i t,
  run (new_queue progs) h = Ok (st, os) ->
  nth_error (threads st) i = Some t -> at_ t = BlockV ->
  (forall j u, nth_error (threads st) j = Some u -> resting u) -> queue st = [].
Proof.
  intros progs h st os i t H E B R. eapply blocked_empty; eauto.
  eapply run_inv; [apply inv_init|exact H].
Qed.
Print Assumptions C40_waits_only_if_empty.

(** next waits when the queue is empty, and does not when it is not and nobody else is in
    the middle of an operation. *)
Theorem C40_next_waits : forall progs h st os i t r,
  run (new_queue progs) h = Ok (st, os) ->
  nth_error (threads st) i = Some t -> at_ t = Idle -> todo t = Next :: r ->
  exists st', step st i = Ok (st', []) /\
    (queue st = [] -> nth_error (threads st') i = Some (move t BlockV)) /\
    (queue st <> [] -> (forall j u, nth_error (threads st) j = Some u -> resting u) ->
       nth_error (threads st') i = Some (move t GotV)).
Proof.
  intros progs h st os i t r H E A T.
  assert (I : inv st) by (eapply run_inv; [apply inv_init|exact H]).
  exists (wait_v st i t). split; [unfold step; rewrite E, T, A; reflexivity|].
  pose proof I as (A1 & A2 & A3 & A4 & _). pose proof (wsum_ge weight (threads st) weight_ge) as W.
  unfold wait_v. split.
  - intros Q. rewrite Q in A4. cbn in A4. destruct (Z.ltb_spec 0 (vsig st)); [lia|].
    cbn. eapply nth_set_same; eauto.
  - intros Q R. rewrite (at_rest st I R). destruct (queue st); [congruence|].
    destruct (Z.ltb_spec 0 (Z.of_nat (length (z :: l)))) as [|X]; [|cbn in X; lia].
    cbn. eapply nth_set_same; eauto.
Qed.
Print Assumptions C40_next_waits.

(** As long as some process has something to do and does not wait for an element, some
    process can go on. *)
Theorem C40_no_deadlock : forall progs h st os i t,
  run (new_queue progs) h = Ok (st, os) ->
  nth_error (threads st) i = Some t -> todo t <> [] -> at_ t <> BlockV ->
  exists j r, step st j = Ok r.
Proof.
  intros progs h st os i t H E T B. eapply progress; eauto.
  eapply run_inv; [apply inv_init|exact H].
Qed.
Print Assumptions C40_no_deadlock.

(** Two producers and two consumers. *)
Example C40_ex : exists st,
  run (new_queue [[Put 7; Put 8]; [Put 9]; [Next; Next]; [Peek]])
      [2; 0; 1; 0; 0; 0; 3; 1; 2; 1; 1; 2; 3; 2; 3; 3; 2]%nat = Ok (st, [Added 0 7; Added 1 9; Removed 2 7; Looked 3 9])
  /\ queue st = [9] /\ nth_error (threads st) 2%nat = Some (mkT BlockV [Next] [7])
  /\ nth_error (threads st) 3%nat = Some (mkT (SigV (Some 9)) [Peek] []).
Proof. eexists. vm_compute. split; [reflexivity|]. auto. Qed.
