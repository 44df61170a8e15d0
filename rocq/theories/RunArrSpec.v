(** What a RunArray should be: a list. *)
From Coq Require Import ZArith List Bool.
Import ListNotations.
Local Open Scope Z_scope.

Section Spec.
Context {A : Type}.

(** the messages of a history *)
Inductive rop :=
| RAt (i : Z)            (* at: *)
| RPutSame (i : Z)       (* at: i put: (self at: i) *)
| RRemove (i : Z)        (* removeAtIndex: *)
| RRemoveFirst | RRemoveLast
| RFirst | RLast | RSize | RDo
| RCopy.                 (* go on with a shallowCopy *)

(** answers *)
Inductive ranswer := RElt (x : A) | RNum (n : Z) | RElts (l : list A) | RError.

(** the element at a 1-based index *)
Definition elt (l : list A) (i : Z) : option A :=
  if (1 <=? i) then nth_error l (Z.to_nat (i - 1)) else None.

(** the list without the element at a 1-based index *)
Definition without (l : list A) (i : Z) : list A :=
  firstn (Z.to_nat (i - 1)) l ++ skipn (Z.to_nat i) l.

(** the index a message is about, if any *)
Definition index_of_op (o : rop) (l : list A) : option Z :=
  match o with
  | RAt i | RPutSame i | RRemove i => Some i
  | RRemoveFirst | RFirst => Some 1
  | RRemoveLast | RLast => Some (Z.of_nat (length l))
  | _ => None
  end.

Definition is_removal (o : rop) : bool :=
  match o with RRemove _ | RRemoveFirst | RRemoveLast => true | _ => false end.

(** answer and elements afterwards *)
Definition rspec (o : rop) (l : list A) : ranswer * list A :=
  match o, index_of_op o l with
  | RSize, _ => (RNum (Z.of_nat (length l)), l)
  | RDo, _ => (RElts l, l)
  | RCopy, _ => (RElts l, l)
  | _, Some i =>
    match elt l i with
    | None => (RError, l)
    | Some x => (RElt x, if is_removal o then without l i else l)
    end
  | _, None => (RError, l)
  end.

(** the answers to a history; it ends with the first error *)
Fixpoint rhistory (os : list rop) (l : list A) : list ranswer :=
  match os with
  | [] => []
  | o :: os =>
    let '(a, l') := rspec o l in
    match a with RError => [RError] | _ => a :: rhistory os l' end
  end.

(** histories that never remove the only element *)
Fixpoint keeps_one (os : list rop) (l : list A) : Prop :=
  match os with
  | [] => True
  | o :: os =>
    (is_removal o = true -> (2 <= length l)%nat) /\
    keeps_one os (snd (rspec o l))
  end.

(** index of the first element equal to [x] at or after [start] *)
Definition first_index (eqb : A -> A -> bool) (x : A) (start : Z) (l : list A)
    (i : Z) : Prop :=
  start <= i /\ (exists y, elt l i = Some y /\ eqb y x = true) /\
  forall j y, start <= j < i -> elt l j = Some y -> eqb y x = false.
End Spec.
Arguments ranswer A : clear implicits.
