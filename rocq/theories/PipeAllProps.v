(** C130: reading many objects from streams made from streams. *)
From Coq Require Import Arith.
From Verif Require Import Base Pipe PipeSpec PipeProofs PipeRun PipeBuild PipeAll PipeAllSpec PipeAllProofs PipeExamples.

(** After any messages, do: hands the block each object that is left, once and in order. *)
Theorem C130_do : forall fuel n e ops,
  fine e -> may_all e ops (meaning e) -> (size e < fuel)%nat -> (length (left_all ops (meaning e)) < n)%nat ->
  exists s a s', build fuel e = Ok s /\ run_all fuel ops s = Ok (a, s') /\ do_all fuel n s' = Ok (left_all ops (meaning e)).
Proof.
  intros fuel n e ops F M N K. destruct (sim_after fuel e ops F M N) as (s & a & s' & m & A & B & C).
  exists s, a, s'. split; [exact A|]. split; [exact B|]. exact (do_all_ok fuel e N n s' _ _ C K).
Qed.
Print Assumptions C130_do.
Example C130_do_ex : fine pipeline /\ may_all pipeline [Peek; Next] (meaning pipeline) /\ left_all [Peek; Next] (meaning pipeline) = [Atom 3; Atom 8; Atom 10].
Proof. split; [cbn; auto|]. split; [cbn; auto|vm_compute; reflexivity]. Qed.

(** linesDo: *)
Theorem C130_linesDo_partial : forall fuel n e ops,
  fine e -> may_all e ops (meaning e) -> peeks LF e -> (size e < fuel)%nat -> (length (left_all ops (meaning e)) < n)%nat ->
  exists s a s', build fuel e = Ok s /\ run_all fuel ops s = Ok (a, s')
    /\ lines_do fuel n s' = Ok (map Tuple (lines (left_all ops (meaning e)))).
Proof.
  intros fuel n e ops F M P N K. destruct (sim_after fuel e ops F M N) as (s & a & s' & m & A & B & C).
  exists s, a, s'. split; [exact A|]. split; [exact B|]. exact (lines_do_ok fuel e N n P s' _ _ C K).
Qed.
Print Assumptions C130_linesDo_partial.
Example C130_linesDo_ex : let e := Cat (From [Atom 65; CR]) (From [LF; Atom 66; LF]) in
  fine e /\ peeks LF e /\ map Tuple (lines (meaning e)) = [Tuple [Atom 65]; Tuple [Atom 66]].
Proof. split; [cbn; auto|]. split; [cbn; auto|reflexivity]. Qed.

(** upTo: answers what is before the first object that is equal and stops after it, if the
    species of the stream holds what is answered. *)
Theorem C130_upTo_partial : forall fuel n holds x e ops,
  fine e -> may_all e ops (meaning e) -> (size e < fuel)%nat -> (length (left_all ops (meaning e)) < n)%nat ->
  Forall (fun y => holds y = true) (fst (cut x (left_all ops (meaning e)))) ->
  exists s a s' s'', build fuel e = Ok s /\ run_all fuel ops s = Ok (a, s')
    /\ up_to fuel n holds x s' = Ok (fst (cut x (left_all ops (meaning e))), s'')
    /\ do_all fuel n s'' = Ok (snd (cut x (left_all ops (meaning e)))).
Proof.
  intros fuel n holds x e ops F M N K H. destruct (sim_after fuel e ops F M N) as (s & a & s' & m & A & B & C).
  destruct (up_to_ok fuel e N n holds x s' _ _ C K H) as (s'' & m' & D & E).
  exists s, a, s', s''. split; [exact A|]. split; [exact B|]. split; [exact D|]. apply (do_all_ok fuel e N n s'' _ _ E).
  exact (Nat.le_lt_trans _ _ _ (proj1 (cut_length x _)) K).
Qed.
Print Assumptions C130_upTo_partial.
Example C130_upTo_ex : cut (Atom 8) (meaning pipeline) = ([Atom 1; Atom 3], [Atom 10]) /\ Forall (fun y => character y = true) (fst (cut (Atom 8) (meaning pipeline))).
Proof. split; [reflexivity|]. repeat constructor. Qed.

(** skipTo: and skip: *)
Theorem C130_skipTo : forall fuel n x e ops,
  fine e -> may_all e ops (meaning e) -> (size e < fuel)%nat -> (length (left_all ops (meaning e)) < n)%nat ->
  exists s a s' s'', build fuel e = Ok s /\ run_all fuel ops s = Ok (a, s')
    /\ skip_to fuel n x s' = Ok (has x (left_all ops (meaning e)), s'')
    /\ do_all fuel n s'' = Ok (snd (cut x (left_all ops (meaning e)))).
Proof.
  intros fuel n x e ops F M N K. destruct (sim_after fuel e ops F M N) as (s & a & s' & m & A & B & C).
  destruct (skip_to_ok fuel e N n x s' _ _ C K) as (s'' & m' & D & E).
  exists s, a, s', s''. split; [exact A|]. split; [exact B|]. split; [exact D|]. apply (do_all_ok fuel e N n s'' _ _ E).
  exact (Nat.le_lt_trans _ _ _ (proj1 (cut_length x _)) K).
Qed.
Print Assumptions C130_skipTo.
Theorem C130_skip : forall fuel n k e ops,
  fine e -> may_all e ops (meaning e) -> (size e < fuel)%nat -> (length (left_all ops (meaning e)) < n)%nat ->
  exists s a s' s'', build fuel e = Ok s /\ run_all fuel ops s = Ok (a, s')
    /\ skip fuel k s' = Ok ((k <=? length (left_all ops (meaning e)))%nat, s'')
    /\ do_all fuel n s'' = Ok (skipn k (left_all ops (meaning e))).
Proof.
  intros fuel n k e ops F M N K. destruct (sim_after fuel e ops F M N) as (s & a & s' & m & A & B & C).
  destruct (skip_ok fuel e N k s' _ _ C) as (s'' & m' & D & E).
  exists s, a, s', s''. split; [exact A|]. split; [exact B|]. split; [exact D|]. apply (do_all_ok fuel e N n s'' _ _ E).
  rewrite skipn_length. exact (Nat.le_lt_trans _ _ _ (Nat.le_sub_l _ _) K).
Qed.
Print Assumptions C130_skip.
Example C130_skip_ex : fine pipeline /\ has (Atom 8) (meaning pipeline) = true /\ skipn 2 (meaning pipeline) = [Atom 8; Atom 10].
Proof. split; [cbn; auto|]. split; reflexivity. Qed.

(** contents, which reads by blocks of 1024 objects, answers all that is left if the species
    holds it ... *)
Theorem C130_contents_partial : forall fuel n holds e ops,
  fine e -> may_all e ops (meaning e) -> (size e < fuel)%nat -> (length (left_all ops (meaning e)) < n)%nat ->
  Forall (fun y => holds y = true) (left_all ops (meaning e)) ->
  exists s a s', build fuel e = Ok s /\ run_all fuel ops s = Ok (a, s') /\ contents fuel n holds s' = Ok (left_all ops (meaning e)).
Proof.
  intros fuel n holds e ops F M N K H. destruct (sim_after fuel e ops F M N) as (s & a & s' & m & A & B & C).
  exists s, a, s'. split; [exact A|]. split; [exact B|]. exact (contents_ok fuel e N n holds s' _ _ C K H).
Qed.
Print Assumptions C130_contents_partial.
Example C130_contents_ex : Forall (fun y => character y = true) (left_all [Next] (meaning pipeline)).
Proof. repeat constructor. Qed.
(** ... and fails otherwise: a stream collected from a String has the species of the String,
    whatever the block answers. *)
Theorem C130_contents_refuted : exists e holds l, meaning e = l /\ forall fuel n, (8 <= fuel)%nat -> (4 <= n)%nat ->
  exists s, build fuel e = Ok s /\ contents fuel n holds s = Err /\ do_all fuel n s = Ok l.
Proof.
  exists (Map (From [Atom 65; Atom 66]) (fun x => Flag (eqb x (Atom 65)))), character, [Flag true; Flag false].
  split; [reflexivity|]. exact collect_contents.
Qed.
Print Assumptions C130_contents_refuted.

(** splitAt: answers the parts without the last if that is empty ... *)
Theorem C130_splitAt_partial : forall fuel n holds x e ops, (forall y, holds y = true) ->
  fine e -> may_all e ops (meaning e) -> (size e < fuel)%nat -> (length (left_all ops (meaning e)) < n)%nat ->
  exists s a s', build fuel e = Ok s /\ run_all fuel ops s = Ok (a, s')
    /\ split_at fuel n holds x s' = Ok (match last (parts x (left_all ops (meaning e))) [] with
                                        | [] => removelast (parts x (left_all ops (meaning e)))
                                        | _ => parts x (left_all ops (meaning e))
                                        end).
Proof.
  intros fuel n holds x e ops Hh F M N K. destruct (sim_after fuel e ops F M N) as (s & a & s' & m & A & B & C).
  exists s, a, s'. split; [exact A|]. split; [exact B|]. exact (split_at_ok fuel e N n holds x Hh s' _ _ C K).
Qed.
Print Assumptions C130_splitAt_partial.
Example C130_splitAt_ex : fine pipeline /\ parts (Atom 8) (meaning pipeline) = [[Atom 1; Atom 3]; [Atom 10]].
Proof. split; [cbn; auto|reflexivity]. Qed.
(** The parts, each with the separator after it, are the objects again, perhaps with one
    separator more. *)
Theorem C130_splitAt_join : forall fuel n holds x e ops, (forall y, holds y = true) ->
  fine e -> may_all e ops (meaning e) -> (size e < fuel)%nat -> (length (left_all ops (meaning e)) < n)%nat ->
  Forall (fun y => eqb y x = true -> y = x) (left_all ops (meaning e)) ->
  exists s a s' ps, build fuel e = Ok s /\ run_all fuel ops s = Ok (a, s') /\ split_at fuel n holds x s' = Ok ps
    /\ (concat (map (fun p => p ++ [x]) ps) = left_all ops (meaning e) \/ concat (map (fun p => p ++ [x]) ps) = left_all ops (meaning e) ++ [x]).
Proof.
  intros fuel n holds x e ops Hh F M N K H. destruct (sim_after fuel e ops F M N) as (s & a & s' & m & A & B & C).
  exists s, a, s'. eexists. split; [exact A|]. split; [exact B|]. split; [exact (split_at_ok fuel e N n holds x Hh s' _ _ C K)|].
  exact (some_parts_join x _ H).
Qed.
Print Assumptions C130_splitAt_join.
Example C130_splitAt_join_ex : Forall (fun y => eqb y (Atom 8) = true -> y = Atom 8) (meaning pipeline).
Proof. repeat (constructor; [discriminate || reflexivity|]). constructor. Qed.
(** ... though its comment says that a part, possibly empty, starts after every occurrence. *)
Theorem C130_splitAt_refuted : exists e x, forall fuel n, (8 <= fuel)%nat -> (4 <= n)%nat ->
  exists s ps, build fuel e = Ok s /\ split_at fuel n (fun _ => true) x s = Ok ps /\ ps <> parts x (meaning e).
Proof.
  exists (From [Atom 65; Atom 44]), (Atom 44). intros fuel n H K. destruct (split_end fuel n H K) as (s & A & B & C).
  exists s. eexists. split; [exact A|]. split; [exact B|]. vm_compute. discriminate.
Qed.
Print Assumptions C130_splitAt_refuted.
