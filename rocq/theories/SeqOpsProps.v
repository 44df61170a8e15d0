(** The properties of sequences. *)
From Verif Require Import Base Replace ReplaceSpec SeqOps SeqOpsSpec SeqOpsProofs SeqOpsCopy SeqOpsAll.

(** ** C87 copyReplaceAll:with: *)
(** Each occurrence found from the left is replaced and nothing else, in arrays and in growing collections. *)
Theorem C87_replace_all_partial : forall (A : Type) (eqb : A -> A -> bool) (nil : A) prim fuel l old new,
  old <> [] -> (length l < fuel)%nat ->
  exists ps t, cut eqb old l ps t /\
    copy_replace_all eqb nil prim fuel l old new = Ok (pasted new ps t) /\
    seq_copy_replace_all eqb nil fuel l old new = Ok (pasted new ps t).
Proof.
  intros A eqb nil prim fuel l old new N F.
  destruct (copy_replace_all_ok eqb nil prim fuel l old new N F) as (ps & t & C & E).
  destruct (seq_copy_replace_all_ok eqb nil fuel l old new N F) as (ps' & t' & C' & E').
  destruct (cut_unique eqb old l ps t N C ps' t' C') as [-> ->]. exists ps, t. auto.
Qed.
Print Assumptions C87_replace_all_partial.
(** There is only one way to cut. *)
Theorem C87_one_way : forall (A : Type) (eqb : A -> A -> bool) sub s ps t ps' t',
  sub <> [] -> cut eqb sub s ps t -> cut eqb sub s ps' t' -> ps' = ps /\ t' = t.
Proof. intros A eqb sub s ps t ps' t' N C C'. exact (cut_unique eqb sub s ps t N C ps' t' C'). Qed.
Print Assumptions C87_one_way.
(** indexOfSubCollection:startingAt: answers the first occurrence. *)
Theorem C87_index : forall (A : Type) (eqb : A -> A -> bool) l sub i, sub <> [] -> 1 <= i <= Z.of_nat (length l) + 1 ->
  match index_of_sub eqb l sub i with
  | Ok (Some k) => i <= k /\ occurs eqb sub l (Z.to_nat (k - 1)) /\
      forall j, i <= j < k -> ~ occurs eqb sub l (Z.to_nat (j - 1))
  | Ok None => forall j, i <= j -> ~ occurs eqb sub l (Z.to_nat (j - 1))
  | _ => False
  end.
Proof. exact (fun A eqb => @index_of_sub_ok A eqb). Qed.
Print Assumptions C87_index.
(** Replacing the empty collection never ends, whatever the receiver. *)
Theorem C87_refuted : forall (A : Type) (eqb : A -> A -> bool) (nil : A) prim l new, forall fuel,
  copy_replace_all eqb nil prim fuel l [] new = OutOfFuel /\ seq_copy_replace_all eqb nil fuel l [] new = OutOfFuel.
Proof. intros A eqb nil prim l new fuel. exact (copy_replace_all_empty eqb nil prim fuel l new). Qed.
Print Assumptions C87_refuted.
Example C87_example :
  copy_replace_all Z.eqb 0 true 9 [1; 1; 1; 2; 1; 1] [1; 1] [7; 8; 9] = Ok [7; 8; 9; 1; 2; 7; 8; 9] /\
  copy_replace_all Z.eqb 0 false 9 [1; 1; 1; 2; 1; 1] [1; 1] [] = Ok [1; 2] /\
  seq_copy_replace_all Z.eqb 0 9 [1; 1; 1; 2; 1; 1] [1; 1] [] = Ok [1; 2] /\
  index_of_sub Z.eqb [1; 2; 1; 3] [1; 3] 1 = Ok (Some 3) /\ index_of_sub Z.eqb [1; 2; 1; 3] [1; 3] 4 = Ok None.
Proof. vm_compute. auto. Qed.

(** ** C88 Copies of and with ranges *)
(** Arrays, strings and byte arrays. *)
Theorem C88_arrays_partial : forall (A : Type) (nil : A) prim l start stop,
  (valid l start stop ->
     (forall rep, copy_replace nil prim l start stop rep = Ok (spliced l start stop rep)) /\
     (forall x, copy_replace_object nil prim l start stop x =
        Ok (spliced l start stop (repeat x (Z.to_nat (Z.max 1 (stop - start + 1)))))) /\
     copy_from_to nil prim l start stop = Ok (slice l start stop)) /\
  (~ valid l start stop ->
     (forall rep, copy_replace nil prim l start stop rep = Err) /\
     (stop <> start - 1 -> copy_from_to nil prim l start stop = Err)).
Proof.
  intros A nil prim l start stop. split; intros V.
  - split; [|split]; intros.
    + exact (copy_replace_valid nil prim l start stop rep V).
    + exact (copy_replace_object_valid nil prim l start stop x V).
    + exact (copy_from_to_valid nil prim l start stop V).
  - split; intros.
    + exact (copy_replace_invalid nil prim l start stop rep V).
    + exact (copy_from_to_invalid nil prim l start stop H V).
Qed.
Print Assumptions C88_arrays_partial.
(** Growing collections, for ranges that exist. *)
Theorem C88_growing_partial : forall (A : Type) (nil : A) l start stop, valid l start stop ->
  (forall rep, seq_copy_replace nil l start stop rep = Ok (spliced l start stop rep)) /\
  seq_copy_from_to l start stop = Ok (slice l start stop).
Proof.
  intros A nil l start stop V. split; intros.
  - exact (seq_copy_replace_valid nil l start stop rep V).
  - exact (seq_copy_from_to_valid l start stop V).
Qed.
Print Assumptions C88_growing_partial.
(** A growing collection takes ranges that reach beyond either end, which an array refuses; and both answer
    an empty copy of an empty range wherever that is. *)
Theorem C88_refuted : exists (l rep : list Z) start stop start' stop',
  ~ valid l start stop /\ (exists r, seq_copy_replace 0 l start stop rep = Ok r) /\
  ~ valid l start' stop' /\ (exists r, seq_copy_replace 0 l start' stop' rep = Ok r) /\
  copy_replace 0 true l start stop rep = Err /\ copy_replace 0 true l start' stop' rep = Err /\
  ~ valid l 100 99 /\ copy_from_to 0 true l 100 99 = Ok [] /\ seq_copy_from_to l 100 99 = Ok [].
Proof.
  exists [1; 2; 3; 4], [9; 9; 9], 3, 6, (-1), 2. unfold valid. cbn [length].
  split; [lia|]. split; [eexists; vm_compute; reflexivity|]. split; [lia|]. split; [eexists; vm_compute; reflexivity|].
  split; [vm_compute; reflexivity|]. split; [vm_compute; reflexivity|]. split; [lia|]. split; vm_compute; reflexivity.
Qed.
Print Assumptions C88_refuted.
Example C88_example :
  valid [1; 2; 3; 4] 2 3 /\ copy_replace 0 false [1; 2; 3; 4] 2 3 [7; 8; 9] = Ok [1; 7; 8; 9; 4] /\
  copy_replace_object 0 true [1; 2; 3; 4] 5 4 7 = Ok [1; 2; 3; 4; 7] /\ copy_from_to 0 true [1; 2; 3; 4] 2 3 = Ok [2; 3] /\
  ~ valid [1; 2; 3; 4] 3 5.
Proof. unfold valid. cbn [length]. split; [lia|]. split; [reflexivity|]. split; [reflexivity|]. split; [reflexivity|lia]. Qed.

(** ** C89 replaceFrom:to:with:startingAt: as a method *)
(** A range that exists in both is copied, whether by the primitive or not and even within one collection. *)
Theorem C89_copied : forall (A : Type) prim (l : list A) start stop src from,
  in_range l start stop (elements src l) from ->
  exists l', replace_from prim l start stop src from = (l', true) /\ replaced l start stop (elements src l) from l'.
Proof. exact (fun A => @replace_in A). Qed.
Print Assumptions C89_copied.
(** Success means that the range exists, or that there was nothing to do. *)
Theorem C89_success_partial : forall (A : Type) prim (l : list A) start stop src from l',
  replace_from prim l start stop src from = (l', true) ->
  in_range l start stop (elements src l) from \/ stop = start - 1 /\ stop <= Z.of_nat (length l) /\ l' = l.
Proof. exact (fun A => @replace_ok A). Qed.
Print Assumptions C89_success_partial.
(** But a failure may leave some elements replaced. *)
Theorem C89_refuted : exists (l src l' : list Z) start stop from, l' <> l /\
  replace_from true l start stop (Other src) from = (l', false).
Proof. exists [0; 0; 0], [1; 2; 3], [2; 3; 0], 1, 3, 2. split; [discriminate|reflexivity]. Qed.
Print Assumptions C89_refuted.
Example C89_example :
  in_range [1; 2; 3; 4; 5] 2 5 [1; 2; 3; 4; 5] 1 /\
  replace_from true [1; 2; 3; 4; 5] 2 5 Self 1 = ([1; 1; 2; 3; 4], true) /\
  replace_from false [1; 2; 3; 4; 5] 2 5 Self 1 = ([1; 1; 2; 3; 4], true) /\
  replace_from false [1; 2; 3; 4; 5] 1 4 Self 2 = ([2; 3; 4; 5; 5], true).
Proof. unfold in_range. cbn [length]. split; [lia|]. split; [reflexivity|]. split; reflexivity. Qed.

(** ** C90 Filling, concatenating and joining *)
Theorem C90_whole : forall (A : Type) (nil : A) prim,
  (forall (l : list A) x, at_all_put prim l x = Ok (repeat x (length l))) /\
  (forall l m, comma nil prim l m = Ok (l ++ m)) /\
  (forall ls sep, join nil prim ls sep = Ok (joined ls sep)).
Proof.
  intros A nil prim. split; [|split]; intros.
  - exact (at_all_put_ok prim l x).
  - exact (comma_ok nil prim l m).
  - exact (join_ok nil prim ls sep).
Qed.
Print Assumptions C90_whole.
Example C90_example :
  at_all_put false [1; 2; 3; 4; 5; 6; 7; 8; 9; 10] 7 = Ok [7; 7; 7; 7; 7; 7; 7; 7; 7; 7] /\
  comma 0 true [1; 2] [3] = Ok [1; 2; 3] /\ join 0 true [[1; 2]; []; [3]] [0; 9] = Ok [1; 2; 0; 9; 0; 9; 3].
Proof. split; [reflexivity|]. split; reflexivity. Qed.
