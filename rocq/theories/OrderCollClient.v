(** Sending messages to an OrderedCollection. *)
From Verif Require Import Base OrderColl OrderCollSpec.

Section Client.
  Context {A : Type} (nil : A).
  Definition of_get (c : @oc A) (r : outcome (result A)) : outcome (@oc A * oans A) :=
    olet r := r in Ok (c, match r with Answer x => Elt x | Signal s => Fail s end).
  Definition of_remove (r : outcome (@oc A * result A)) : outcome (@oc A * oans A) :=
    olet (c, r) := r in Ok (c, match r with Answer x => Elt x | Signal s => Fail s end).
  Definition of_store (r : outcome (@oc A * result unit)) : outcome (@oc A * oans A) :=
    olet (c, r) := r in Ok (c, match r with Answer _ => Done | Signal s => Fail s end).
  Definition of_add (r : outcome (@oc A)) : outcome (@oc A * oans A) := olet c := r in Ok (c, Done).
  (** kernel/OrderColl.st. *)
  Definition osend (c : @oc A) (m : omsg A) : outcome (@oc A * oans A) :=
    match m with
    | OAddFirst x => of_add (addFirst nil x c)
    | OAddLast x => of_add (add nil x c)
    | OAddAfter x i => of_store (addAfterIndex nil x i c)
    | OAddAll l => of_add (addAll nil l c)
    | OAddAllFirst l => of_add (addAllFirst nil l c)
    | OAddAllAfter l i => of_store (addAllAfterIndex nil l i c)
    | ORemoveFirst => of_remove (removeFirst nil c)
    | ORemoveLast => of_remove (removeLast nil c)
    | ORemoveAt i => of_remove (removeAtIndex nil i c)
    | OAt i => of_get c (at_ nil i c)
    | OAtPut i x => of_store (at_put i x c)
    | OFirst => of_get c (first nil c)
    | OLast => of_get c (last nil c)
    | OSize => Ok (c, Count (size c))
    | ODo => olet l := elements_of nil c in Ok (c, All l)
    end.
  Fixpoint ohist (c : @oc A) (ms : list (omsg A)) : outcome (list (oans A)) :=
    match ms with
    | [] => Ok []
    | m :: ms => olet (c, a) := osend c m in olet l := ohist c ms in Ok (a :: l)
    end.
End Client.
