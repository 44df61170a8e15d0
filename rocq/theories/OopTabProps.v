(** C27: the object table. *)
From Verif Require Import Base OopTab OopTabRun OopTabSpec OopTabProofs.
Local Open Scope Z_scope.

(** C27: creating objects and collecting garbage, if no step of the sweep frees
    the last OOP of its range and is interrupted there *)
Theorem C27_partial : forall n rs s l, 0 <= n -> Forall proper rs ->
  run (empty_table n) rs = Ok (s, l) -> no_step_just_ends (empty_table n) rs ->
  exists w, effects no_objects rs l w.
Proof. exact history_ok. Qed.
Print Assumptions C27_partial.

(** a sweep that has come to its end has freed the dead OOPs, and no others *)
Theorem C27_sweep_partial : forall n rs s l, 0 <= n -> Forall proper rs ->
  run (empty_table n) rs = Ok (s, l) -> no_step_just_ends (empty_table n) rs ->
  exists w, effects no_objects rs l w /\
    forall s' a, (exists r, (r = SweepAll \/ r = SweepStep /\ a = ASwept true)
                  /\ serve s r = Ok (s', a)) ->
      forall i, 0 <= i < n -> (flags s' i = 0 <-> objs w i = None).
Proof. exact sweep_exact. Qed.
Print Assumptions C27_sweep_partial.

(** while an OOP is free there is no access past the end of the table *)
Theorem C27_defined_partial : forall n rs s l w r, 0 <= n -> Forall proper rs ->
  run (empty_table n) rs = Ok (s, l) -> no_step_just_ends (empty_table n) rs ->
  effects no_objects rs l w -> (exists i, 0 <= i < n /\ objs w i = None) ->
  match r with IsAlive i | Contents i => 0 <= i < n | _ => True end ->
  exists x, serve s r = Ok x.
Proof. exact history_total. Qed.
Print Assumptions C27_defined_partial.

Definition example_history : list request :=
  [NewObject 1 0; NewObject 2 64; NewLargeObject 3; NewObject 4 0;
   Scavenge (fun i => negb (i =? 0)) (fun i => i =? 1); NewObject 5 0;
   GlobalGC (fun i => negb (i =? 2)); SweepStep; NewObject 6 0; NewObject 7 0; IsAlive 3; Contents 0].

Example C27_example : Forall proper example_history
  /\ no_step_just_ends (empty_table 20) example_history
  /\ last_answers 12 (run (empty_table 20) example_history)
     = Some [AOop 0; AOop 1; AOop 2; AOop 3; ANone; AOop 0; ANone; ASwept true; AOop 2; AOop 4;
             ABool true; ACont 5].
Proof.
  split; [|split].
  - repeat constructor; cbn; discriminate.
  - vm_compute. repeat split; discriminate.
  - vm_compute. reflexivity.
Qed.

(** an object that is alive loses its OOP to a new one *)
Theorem C27_refuted : exists n rs s l, Forall proper rs /\ run (empty_table n) rs = Ok (s, l)
  /\ (exists k, nth_error rs k = Some (IsAlive 2) /\ nth_error l k = Some (ABool true)
        /\ nth_error l (k + 1) = Some (ACont 2)
        /\ nth_error l (k + 2) = Some (AOop 2) /\ nth_error l (k + 3) = Some (ACont 201))
  /\ ~ exists w, effects no_objects rs l w.
Proof. exact lost_object. Qed.
Print Assumptions C27_refuted.
