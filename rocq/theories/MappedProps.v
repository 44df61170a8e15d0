(** C137: a MappedCollection gives the objects of its domain under the keys of its map. *)
From Verif Require Import Base Mapped MappedSpec MappedProofs.
Import ListNotations.
Local Open Scope Z_scope.

Theorem C137_at : forall c k, valid c ->
  (forall v, at_ c k = Ok v <-> In (k, v) (entries c)) /\ (at_ c k = Err <-> ~ In k (map fst (entries c))).
Proof. exact at_ok. Qed.
Print Assumptions C137_at.

(** Storing under a key changes what is there and nothing else, if no two keys share an index. *)
Theorem C137_at_put : forall c k v, valid c -> In k (keys c) -> NoDup (map_do (mapof c)) ->
  exists c', at_put c k v = Ok c' /\ valid c' /\ keys c' = keys c /\
    forall k' w, In (k', w) (entries c') <-> if k' =? k then w = v else In (k', w) (entries c).
Proof. exact at_put_ok. Qed.
Print Assumptions C137_at_put.

Theorem C137_do : forall c, valid c ->
  do_ c = Ok (map snd (entries c)) /\ size c = Z.of_nat (length (entries c)) /\ keys c = map fst (entries c).
Proof. exact do_ok. Qed.
Print Assumptions C137_do.

Theorem C137_at_all : forall c ks, valid c -> (forall k, In k ks -> In k (keys c)) -> NoDup ks ->
  exists c', at_all c ks = Ok c' /\ Forall2 (fun k v => In (k, v) (entries c)) ks (map snd (entries c')) /\
    (forall l, mapof c = MDict l -> keys c' = ks) /\ valid c'.
Proof. exact at_all_gen. Qed.
Print Assumptions C137_at_all.

Theorem C137_copy : forall c l a b, mapof c = MSeq l -> valid c -> 1 <= a -> b <= Z.of_nat (length l) ->
  exists vs, copy_from_to c a b = Ok vs /\ length vs = Z.to_nat (b - a + 1) /\
    forall n, (n < length vs)%nat -> In (a + Z.of_nat n, nth n vs 0) (entries c).
Proof. exact copy_ok. Qed.
Print Assumptions C137_copy.

(** collect: keeps the keys, if the domain is not larger than the map. *)
Theorem C137_collect : forall f c, valid c -> (length (domain c) <= length (entries c))%nat ->
  exists x, collect f c = Ok x /\ centries x = map (fun p => (fst p, f (snd p))) (entries c).
Proof. exact collect_ok. Qed.
Print Assumptions C137_collect.

(** All three are right for a map of numbers to themselves. *)
Theorem C137_collect_same : forall f c, valid c -> same_numbers c ->
  exists x, collect f c = Ok x /\ centries x = map (fun p => (fst p, f (snd p))) (entries c).
Proof. exact collect_same. Qed.
Print Assumptions C137_collect_same.

Theorem C137_select_same : forall p c, valid c -> same_numbers c ->
  exists c', select p c = Ok c' /\ map snd (entries c') = filter p (map snd (entries c)).
Proof. exact select_same. Qed.
Print Assumptions C137_select_same.

Theorem C137_reject_same : forall p c, valid c -> same_numbers c ->
  exists c', reject p c = Ok c' /\ map snd (entries c') = filter (fun v => negb (p v)) (map snd (entries c)).
Proof. exact reject_same. Qed.
Print Assumptions C137_reject_same.

(** FINDING: select: and reject: take what do: of the map gives, which are indices of the domain, for
    keys (kernel/MappedColl.st:190, 199), and so test other objects than those they answer. *)
Theorem C137_select_refuted : exists c p c', valid c /\ select p c = Ok c' /\ map snd (entries c') <> filter p (map snd (entries c)).
Proof. exact select_bad. Qed.
Print Assumptions C137_select_refuted.

Theorem C137_reject_refuted : exists c p c', valid c /\ reject p c = Ok c' /\ map snd (entries c') <> filter (fun v => negb (p v)) (map snd (entries c)).
Proof. exact reject_bad. Qed.
Print Assumptions C137_reject_refuted.

(** FINDING: with a Dictionary for a map they are errors, and so is keysAndValuesDo:. *)
Theorem C137_dictionary_refuted : exists c, valid c /\ entries c = [(100, 10)] /\
  (forall p, select p c = Err) /\ (forall p, reject p c = Err) /\ keys_and_values_do c = Err.
Proof. exact dict_bad. Qed.
Print Assumptions C137_dictionary_refuted.

(** FINDING: collect: is an error for part of a larger domain. *)
Theorem C137_collect_refuted : exists c, valid c /\ forall f, collect f c = Err.
Proof. exact collect_bad. Qed.
Print Assumptions C137_collect_refuted.

(** FINDING: keysAndValuesDo: leaves out keys and gives others twice. *)
Theorem C137_keys_values_refuted : exists c l k v, valid c /\ keys_and_values_do c = Ok l /\ In (k, v) (entries c) /\ ~ In (k, v) l.
Proof. exact keys_values_bad. Qed.
Print Assumptions C137_keys_values_refuted.

Example C137_valid_example : valid (Mp [10; 20; 30] (MSeq [3; 1; 2])) /\ NoDup (map_do (MSeq [3; 1; 2])) /\
  entries (Mp [10; 20; 30] (MSeq [3; 1; 2])) = [(1, 30); (2, 10); (3, 20)] /\ at_ (Mp [10; 20; 30] (MSeq [3; 1; 2])) 1 = Ok 30.
Proof. split; [exact valid0|]. split; [cbn; repeat constructor; cbn; lia|]. split; reflexivity. Qed.
Example C137_collect_example : collect (Z.add 1) (Mp [10; 20; 30] (MSeq [3; 1; 2])) = Ok (Again (Mp [11; 21; 31] (MSeq [3; 1; 2]))).
Proof. reflexivity. Qed.
Example C137_copy_example : copy_from_to (Mp [10; 20; 30] (MSeq [3; 1; 2])) 2 3 = Ok [10; 20].
Proof. reflexivity. Qed.
Example C137_same_example : valid (Mp [10; 20; 30] (MSeq [1; 2])) /\ same_numbers (Mp [10; 20; 30] (MSeq [1; 2])) /\
  same_numbers (Mp [10; 20; 30] (MDict [(2, 2); (3, 3)])).
Proof.
  split; [split; [cbn; intros i [<-|[<-|[]]]; lia|cbn; repeat constructor; cbn; lia]|].
  split; intros i; cbn; intros [<-|[<-|[]]]; reflexivity.
Qed.
Example C137_at_all_example : at_all (Mp [10; 20; 30] (MDict [(7, 3); (8, 1); (9, 2)])) [9; 7] = Ok (Mp [10; 20; 30] (MDict [(9, 2); (7, 3)])).
Proof. reflexivity. Qed.
