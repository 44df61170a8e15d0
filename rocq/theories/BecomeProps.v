(** C28: become: exchanges two objects. *)
From Verif Require Import Base OopTab OopTabRun OopTabSpec Become BecomeSpec BecomeProofs.
Local Open Scope Z_scope.

(** C28: become: among allocations, collections, tenuring and sweeping, if no weak object takes part
    and, as for C27, no step of the sweep stops at the end of its range *)
Theorem C28_partial : forall n rs s l, 0 <= n -> Forall pproper rs ->
  prun (empty_table n) rs = Ok (s, l) -> no_step_just_stops (empty_table n) rs ->
  no_weak_become (empty_table n) rs ->
  exists w, peffects pno_objects rs l w.
Proof. exact become_history. Qed.
Print Assumptions C28_partial.

Definition answers (x : outcome (table * list panswer)) : option (list panswer) :=
  match x with Ok (_, l) => Some l | _ => None end.

Definition example_becomes : list prequest :=
  [Table_ (NewObject 10 0); Table_ (NewObject 20 0); Table_ (NewLargeObject 30); MakeWeak 1;
   MakeFixed 0; Become 0 2; Table_ (GlobalGC (fun i => negb (i =? 1))); Table_ (NewObject 40 0);
   Become 2 1; Table_ SweepStep; Table_ (Contents 2); Table_ (Contents 0); MakeReadOnly 2;
   Become 2 0; IsReadOnly 2; Table_ (IsAlive 1)].

Example C28_example : Forall pproper example_becomes
  /\ no_step_just_stops (empty_table 20) example_becomes
  /\ no_weak_become (empty_table 20) example_becomes
  /\ answers (prun (empty_table 20) example_becomes)
     = Some [PA (AOop 0); PA (AOop 1); PA (AOop 2); PDone; PDone; PDone; PA ANone; PA (AOop 1);
               PDone; PA (ASwept true); PA (ACont 40); PA (ACont 30); PDone; PFail; PBool true;
               PA (ABool true)].
Proof.
  split; [|split; [|split]].
  - repeat constructor; cbn; discriminate.
  - vm_compute. repeat split; discriminate.
  - vm_compute. repeat split.
  - vm_compute. reflexivity.
Qed.

(** one become: exchanges the two and touches no other object; a second one restores everything *)
Theorem C28_twice_partial : forall n rs s l i j s1 s2, 0 <= n -> Forall pproper rs ->
  prun (empty_table n) rs = Ok (s, l) -> no_step_just_stops (empty_table n) rs ->
  no_weak_become (empty_table n) rs -> is_weak s i = false -> is_weak s j = false ->
  pserve s (Become i j) = Ok (s1, PDone) -> pserve s1 (Become i j) = Ok (s2, PDone) ->
  forall k, in_table s k = true ->
    is_valid s2 k = is_valid s k
    /\ (is_valid s k = true -> cont s2 k = cont s k /\ is_weak s2 k = is_weak s k
        /\ is_readonly s2 k = is_readonly s k)
    /\ (is_valid s k = true -> k <> i -> k <> j -> cont s1 k = cont s k)
    /\ cont s1 i = cont s j /\ cont s1 j = cont s i.
Proof. exact become_twice. Qed.
Print Assumptions C28_twice_partial.

Definition twice_example : outcome (Z * Z * Z) :=
  olet (s, _) := prun (empty_table 9) [Table_ (NewObject 10 0); Table_ (NewLargeObject 20)] in
  olet (s1, _) := pserve s (Become 0 1) in
  olet (s2, _) := pserve s1 (Become 0 1) in
  Ok (cont s 0, cont s1 0, cont s2 0).

Example C28_twice_example : twice_example = Ok (10, 20, 10).
Proof. vm_compute. reflexivity. Qed.

(** a weak object is no longer weak after become: *)
Theorem C28_refuted : exists n rs s l, Forall pproper rs /\ prun (empty_table n) rs = Ok (s, l)
  /\ no_step_just_stops (empty_table n) rs
  /\ (exists k, nth_error rs k = Some (IsWeak 0) /\ nth_error l k = Some (PBool true)
        /\ nth_error rs (S k) = Some (Become 0 1) /\ nth_error l (S k) = Some PDone
        /\ nth_error rs (S (S (S k))) = Some (IsWeak 1) /\ nth_error l (S (S (S k))) = Some (PBool false))
  /\ ~ exists w, peffects pno_objects rs l w.
Proof. exact weak_lost. Qed.
Print Assumptions C28_refuted.
