(** C35 (Bag). *)
From Verif Require Import Base Hashed HashedSpec Bag BagSpec BagProofs.
Local Open Scope Z_scope.

(** Whatever is sent to a Bag, it answers as a multiset would. *)
Theorem C35_bag : forall {K} (keq : K -> K -> bool) (h : K -> Z), good_hash keq h -> forall n ms,
  exists os, bag_run keq h ms (bag_new n) = Ok os /\ bag_runs keq [] ms os.
Proof. exact @bag_history. Qed.
Print Assumptions C35_bag.

(** 2 and 12 are equal. *)
Example C35_bag_ex : good_hash (fun a b => a mod 10 =? b mod 10) (fun a => a mod 10) /\
  bag_run (fun a b => a mod 10 =? b mod 10) (fun a => a mod 10)
    [BAdd 2; BAddN 12 3; BAddN 5 2; BRemove 22; BRemove 7; BOccurrences 12; BAddN 5 (-7); BIncludes 5; BSize; BDo] (bag_new 3)
  = Ok [BElt 2; BElt 12; BElt 5; BElt 22; BAbsent; BNum 3; BElt 5; BBool false; BNum 3; BList [2; 2; 2]].
Proof. split; [split; [|split; [|split]]; intros; lia|vm_compute; reflexivity]. Qed.
