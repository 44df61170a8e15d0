(** A bag as the list of what is in it. *)
From Verif Require Import Base Bag.
Local Open Scope Z_scope.

Section Spec.
  Context {K : Type} (eq : K -> K -> bool).
  (** How many elements equal to [x]. *)
  Definition times (x : K) (l : list K) : nat := length (filter (eq x) l).
  (** Take out up to [n] elements equal to [x]. *)
  Fixpoint take_out (x : K) (n : nat) (l : list K) : list K :=
    match n, l with
    | O, _ | _, [] => l
    | S k, y :: l => if eq x y then take_out x k l else y :: take_out x n l
    end.
  Definition more (x : K) (n : Z) (l : list K) : list K :=
    if 0 <=? n then repeat x (Z.to_nat n) ++ l else take_out x (Z.to_nat (- n)) l.
  (** What may be answered, and the elements afterwards. *)
  Definition bag_step (l : list K) (m : bmsg K) (o : bobs K) : list K -> Prop :=
    match m with
    | BAdd x => fun l' => o = BElt x /\ l' = x :: l
    | BAddN x n => fun l' => o = BElt x /\ l' = more x n l
    | BRemove x => fun l' =>
      if existsb (eq x) l then o = BElt x /\ l' = take_out x 1 l else o = BAbsent /\ l' = l
    | BOccurrences x => fun l' => o = BNum (Z.of_nat (times x l)) /\ l' = l
    | BIncludes x => fun l' => o = BBool (existsb (eq x) l) /\ l' = l
    | BSize => fun l' => o = BNum (Z.of_nat (length l)) /\ l' = l
    (* any order, and an equal object may stand for an element *)
    | BDo => fun l' => (exists v, o = BList v /\ forall x, times x v = times x l) /\ l' = l
    end.
  Inductive bag_runs : list K -> list (bmsg K) -> list (bobs K) -> Prop :=
  | bag_runs_nil l : bag_runs l [] []
  | bag_runs_cons l m ms o os l' : bag_step l m o l' -> bag_runs l' ms os -> bag_runs l (m :: ms) (o :: os).
End Spec.
