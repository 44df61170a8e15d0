(** What a sequence answers to the messages of an OrderedCollection. *)
From Verif Require Import Base OrderColl.

Section Spec.
  Context {A : Type}.
  Inductive omsg : Type :=
  | OAddFirst (x : A) | OAddLast (x : A) | OAddAfter (x : A) (i : Z)
  | OAddAll (l : list A) | OAddAllFirst (l : list A) | OAddAllAfter (l : list A) (i : Z)
  | ORemoveFirst | ORemoveLast | ORemoveAt (i : Z)
  | OAt (i : Z) | OAtPut (i : Z) (x : A) | OFirst | OLast | OSize | ODo.
  Inductive oans : Type := Done | Elt (x : A) | Fail (s : signal) | Count (z : Z) | All (l : list A).

  (** Element number i, counting from 1. *)
  Definition pick (l : list A) (i : Z) : option A := if i <? 1 then None else nth_error l (Z.to_nat (i - 1)).
  Definition ostep (l : list A) (m : omsg) : list A * oans :=
    let insert xs i :=
      if (0 <=? i) && (i <=? Z.of_nat (length l))
      then (firstn (Z.to_nat i) l ++ xs ++ skipn (Z.to_nat i) l, Done) else (l, Fail IndexOutOfRange) in
    let get i := match pick l i with Some x => Elt x | None => Fail IndexOutOfRange end in
    match m with
    | OAddFirst x => (x :: l, Done)
    | OAddLast x => (l ++ [x], Done)
    | OAddAfter x i => insert [x] i
    | OAddAll xs => (l ++ xs, Done)
    | OAddAllFirst xs => (xs ++ l, Done)
    | OAddAllAfter xs i => insert xs i
    | ORemoveFirst => match l with [] => (l, Fail EmptyCollection) | x :: l' => (l', Elt x) end
    | ORemoveLast => match rev l with [] => (l, Fail EmptyCollection) | x :: l' => (rev l', Elt x) end
    | ORemoveAt i =>
      match l, pick l i with
      | [], _ => (l, Fail EmptyCollection)
      | _, None => (l, Fail IndexOutOfRange)
      | _, Some x => (firstn (Z.to_nat (i - 1)) l ++ skipn (Z.to_nat i) l, Elt x)
      end
    | OAt i => (l, get i)
    | OAtPut i x =>
      match pick l i with
      | Some _ => (firstn (Z.to_nat (i - 1)) l ++ x :: skipn (Z.to_nat i) l, Done)
      | None => (l, Fail IndexOutOfRange)
      end
    | OFirst => (l, get 1)
    | OLast => (l, get (Z.of_nat (length l)))
    | OSize => (l, Count (Z.of_nat (length l)))
    | ODo => (l, All l)
    end.
  Fixpoint orun (l : list A) (ms : list omsg) : list oans :=
    match ms with
    | [] => []
    | m :: ms => let (l, a) := ostep l m in a :: orun l ms
    end.
End Spec.
Arguments omsg : clear implicits.
Arguments oans : clear implicits.
