(** Bag (kernel/Bag.st), on top of the LookupTable of Hashed.v.  The elements are not nil: for nil an error is
    signalled before anything happens (kernel/Bag.st:65-68). *)
From Verif Require Import Base Hashed HashedSpec HashedClient.
Local Open Scope Z_scope.

(** The messages of a history, and what is answered. *)
Inductive bmsg (K : Type) : Type :=
| BAdd (x : K) | BAddN (x : K) (n : Z) | BRemove (x : K) | BOccurrences (x : K) | BIncludes (x : K) | BSize | BDo.
Arguments BAdd {K}. Arguments BAddN {K}. Arguments BRemove {K}. Arguments BOccurrences {K}. Arguments BIncludes {K}.
Arguments BSize {K}. Arguments BDo {K}.
Inductive bobs (K : Type) : Type :=
| BElt (x : K) | BAbsent | BNum (n : Z) | BBool (b : bool) | BList (l : list K).
Arguments BElt {K}. Arguments BAbsent {K}. Arguments BNum {K}. Arguments BBool {K}. Arguments BList {K}.

Section Bag.
  Context {K : Type} (keq : K -> K -> bool) (h : K -> Z).
  (** The instance variable contents. *)
  Definition bag : Type := @ltab K Z.
  (** new:, initContents:, dictionaryClass, kernel/Bag.st:50-56, 210-218. *)
  Definition bag_new (n : Z) : bag := lt_new 0 (Z.max 7 n).
  (** occurrencesOf:, kernel/Bag.st:112-117. *)
  Definition occurrences (x : K) (c : bag) : outcome Z :=
    olet v := lt_at keq h 0 x c in Ok (match v with Some n => n | None => 0 end).
  (** add:withOccurrences:, kernel/Bag.st:58-73. *)
  Definition add_n (x : K) (n : Z) (c : bag) : outcome bag :=
    olet k := occurrences x c in
    olet c := lt_at_put keq h h 0 x (k + n) c in
    if k + n <=? 0 then olet (c, _) := lt_remove_key keq h h 0 x c in Ok c else Ok c.
  (** remove:ifAbsent:, kernel/Bag.st:84-100. *)
  Definition bag_remove (x : K) (c : bag) : outcome (bag * bobs K) :=
    olet k := occurrences x c in
    if k =? 0 then Ok (c, BAbsent)
    else if k =? 1 then olet (c, _) := lt_remove_key keq h h 0 x c in Ok (c, BElt x)
    else olet c := lt_at_put keq h h 0 x (k - 1) c in Ok (c, BElt x).
  (** size, kernel/Bag.st:126-134. *)
  Definition bag_size (c : bag) : Z := fold_left (fun n e => n + snd e) (lt_pairs c) 0.
  (** do:, kernel/Bag.st:158-168. *)
  Definition bag_do (c : bag) : list K := flat_map (fun e => repeat (fst e) (Z.to_nat (snd e))) (lt_pairs c).
  (** includes:, kernel/Bag.st:119-124; includesKey: finds what at:ifAbsent: finds. *)
  Definition bag_includes (x : K) (c : bag) : outcome bool :=
    olet v := lt_at keq h 0 x c in Ok (match v with Some _ => true | None => false end).
  Definition bag_send (m : bmsg K) (c : bag) : outcome (bag * bobs K) :=
    match m with
    | BAdd x => olet c := add_n x 1 c in Ok (c, BElt x)
    | BAddN x n => olet c := add_n x n c in Ok (c, BElt x)
    | BRemove x => bag_remove x c
    | BOccurrences x => olet n := occurrences x c in Ok (c, BNum n)
    | BIncludes x => olet b := bag_includes x c in Ok (c, BBool b)
    | BSize => Ok (c, BNum (bag_size c))
    | BDo => Ok (c, BList (bag_do c))
    end.
  Fixpoint bag_run (ms : list (bmsg K)) (c : bag) : outcome (list (bobs K)) :=
    match ms with
    | [] => Ok []
    | m :: ms => olet (c, o) := bag_send m c in olet os := bag_run ms c in Ok (o :: os)
    end.
End Bag.
