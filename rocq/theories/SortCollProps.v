(** Theorems about SortedCollection. *)
From Coq Require Import Permutation Sorted.
From Verif Require Import Base OrderColl SortColl SortCollSpec SortCollProofs SortCollFind SortCollFindings.
Local Open Scope Z_scope.

(** Without additions that directly follow a removeLast, a SortedCollection answers what an ordered multiset
    answers.  What is missing: C30_refuted says that such an addition spoils the order. *)
Theorem C30_partial {A} (nil : A) R leb one n ms : preorder leb -> sort_block leb R -> 0 <= n -> calm false ms = true ->
  exists c os, sc_new nil n = Ok c /\ shist nil R one ms c = Ok os /\ sruns leb [] false ms os.
Proof. intros (T & Tr) Rs. exact (new_ok nil R leb one T Tr Rs n ms). Qed.
Print Assumptions C30_partial.

Example C30_partial_ex : preorder Z.leb /\ sort_block Z.leb Z.ltb /\
  calm (A := Z) false [MAddAll [3; 1; 2]; MRemoveLast; MFirst; MAdd 0; MAdd 4; MLast; MRemoveAt 2; MDo] = true.
Proof.
  split; [split; intros; rewrite !Z.leb_le in *; lia|]. split; [right; intros; apply Z.ltb_antisym|reflexivity].
Qed.

(** In the same histories do: goes through the elements in order. *)
Theorem C30_order_partial {A} (nil : A) R leb one n ms : preorder leb -> sort_block leb R -> 0 <= n -> calm false ms = true ->
  exists c os v, sc_new nil n = Ok c /\ shist nil R one (ms ++ [MDo]) c = Ok (os ++ [OList v]) /\ in_order leb v /\ sends leb [] false ms v.
Proof. exact (do_sorted nil R leb one n ms). Qed.
Print Assumptions C30_order_partial.

Example C30_order_partial_ex : exists c, sc_new 0 2 = Ok c /\
  shist 0 Z.ltb (fun _ _ => true) [MAddAll [3; 1; 2]; MRemoveLast; MFirst; MAdd 0; MDo] c =
  Ok [OList [3; 1; 2]; OElt (Some 3); OElt (Some 1); OElt (Some 0); OList [0; 1; 2]].
Proof. eexists. split; reflexivity. Qed.

(** An element added after removeLast may stay out of order. *)
Theorem C30_refuted : forall one, exists n ms c os v, sc_new 0 n = Ok c /\
  shist 0 Z.leb one (ms ++ [MDo]) c = Ok (os ++ [OList v]) /\ ~ in_order Z.leb v.
Proof. exact add_after_removeLast. Qed.
Print Assumptions C30_refuted.

(** includes: tells whether an equal element is there, after the same histories. *)
Theorem C56_partial {A} (nil : A) R leb one eqb n ms x : preorder leb -> sort_block leb R ->
  (forall a b, eqb a b = true -> leb a b = true /\ leb b a = true) -> 0 <= n -> calm false ms = true ->
  exists c c1 c2 m, sc_new nil n = Ok c /\ sfinal nil R one ms c = Ok c1 /\ sends leb [] false ms m /\
    includes nil R one eqb x c1 = Ok (c2, existsb (eqb x) m).
Proof. exact (history_includes nil R leb one eqb n ms x). Qed.
Print Assumptions C56_partial.

Example C56_partial_ex : exists c, sc_new 0 2 = Ok c /\ (forall a b, (a =? b) = true -> tens a b = true /\ tens b a = true) /\
  exists c1 c2, sfinal 0 tens (fun _ _ => true) [MAddAll [11; 10; 12]; MRemoveFirst; MFirst] c = Ok c1 /\
  includes 0 tens (fun _ _ => true) Z.eqb 12 c1 = Ok (c2, true).
Proof.
  eexists. split; [reflexivity|]. split; [intros a b H; unfold tens; rewrite !Z.leb_le; lia|].
  do 2 eexists. split; vm_compute; reflexivity.
Qed.

(** After an addition that follows a removeLast, includes: may miss an element that do: goes through. *)
Theorem C56_refuted : forall one, exists n ms c c1 c2 c3 x v, sc_new 0 n = Ok c /\ sfinal 0 Z.leb one ms c = Ok c1 /\
  do_all 0 Z.leb one c1 = Ok (c2, v) /\ In x v /\ includes 0 Z.leb one Z.eqb x c1 = Ok (c3, false).
Proof. exact includes_wrong. Qed.
Print Assumptions C56_refuted.

(** occurrencesOf: a 3 in a collection with one 3 is not 1. *)
Theorem C57_refuted : forall one, exists l c c' k, holding Z.leb one l c /\ occurrencesOf 0 Z.leb one Z.eqb 3 c = Ok (c', k) /\
  k <> Z.of_nat (length (filter (Z.eqb 3) l)).
Proof. exact occurrences_wrong. Qed.
Print Assumptions C57_refuted.

(** indexOf: is not always the first index, when different elements sort alike. *)
Theorem C58_refuted : forall one, exists l c c1 c2 j k, holding tens one l c /\
  indexOf 0 tens one Z.eqb 10 1 c = Ok (c1, Some (Some j)) /\ 1 <= k < j /\ at_ 0 tens one k c1 = Ok (c2, Some 10).
Proof. exact indexOf_wrong. Qed.
Print Assumptions C58_refuted.

(** It is, when the elements that sort alike are equal. *)
Theorem C58_partial {A} (nil : A) R leb one eqb n ms x index : preorder leb -> sort_block leb R ->
  (forall a b, eqb a b = true <-> leb a b = true /\ leb b a = true) -> 0 <= n -> calm false ms = true ->
  exists c c1 m, sc_new nil n = Ok c /\ sfinal nil R one ms c = Ok c1 /\ sends leb [] false ms m /\
    (1 <= index <= Z.of_nat (length m) -> exists c2 m' r,
      indexOf nil R one eqb x index c1 = Ok (c2, Some r) /\ Permutation m m' /\ in_order leb m' /\ first_place (eqb x) m' index r) /\
    (index < 1 \/ Z.of_nat (length m) < index ->
      indexOf nil R one eqb x index c1 = Ok (c1, if index =? Z.of_nat (length m) + 1 then Some None else None)).
Proof. exact (history_indexOf nil R leb one eqb n ms x index). Qed.
Print Assumptions C58_partial.

Example C58_partial_ex : (forall a b, (a =? b) = true <-> (a <=? b) = true /\ (b <=? a) = true) /\
  exists c c1 c2, sc_new 0 2 = Ok c /\ sfinal 0 Z.leb (fun _ _ => true) [MAddAll [5; 3; 5; 4; 5]] c = Ok c1 /\
  indexOf 0 Z.leb (fun _ _ => true) Z.eqb 5 2 c1 = Ok (c2, Some (Some 3)).
Proof.
  split; [intros; rewrite !Z.leb_le, Z.eqb_eq; lia|]. do 3 eexists. split; [reflexivity|]. split; vm_compute; reflexivity.
Qed.

(** at:put: stores, and the elements are no longer in order. *)
Theorem C59_refuted : forall one, exists l c c1 c2 v, holding Z.leb one l c /\ at_put 0 Z.leb one 1 9 c = Ok (c1, Some tt) /\
  do_all 0 Z.leb one c1 = Ok (c2, v) /\ ~ in_order Z.leb v.
Proof. exact put_unordered. Qed.
Print Assumptions C59_refuted.

(** last answers nil (here 0) for a collection without elements. *)
Theorem C60_refuted : forall one, exists c c', sc_new 0 10 = Ok c /\ count c = 0 /\ SortColl.last 0 Z.leb one c = Ok (c', Some 0).
Proof. exact last_of_none. Qed.
Print Assumptions C60_refuted.
