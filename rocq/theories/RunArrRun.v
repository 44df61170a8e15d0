(** Histories of messages to a RunArray. *)
From Coq Require Import ZArith List Bool.
From Verif Require Import Base Hashed RunArr RunArrSpec.
Import ListNotations.
Local Open Scope Z_scope.

Section Run.
Context {A : Type}.
Variable eqb : A -> A -> bool.

(** one message; [Err] is an error signalled by the method.
    kernel/RunArray.st:67-104,168-201,345-381 *)
Definition rstep (o : rop) (r : runarr A) : outcome (ranswer A * runarr A) :=
  let elt (p : outcome (A * runarr A)) :=
    olet t := p in let '(x, r) := t in Ok (RElt x, r) in
  match o with
  | RAt i => elt (at_ i r)
  | RPutSame i =>
    olet t := at_ i r in
    let '(x, r) := t in
    olet r := atPut eqb i x r in Ok (RElt x, r)
  | RRemove i => elt (removeAtIndex i r)
  | RRemoveFirst => elt (removeFirst r)
  | RRemoveLast => elt (removeLast r)
  | RFirst => olet x := first r in Ok (RElt x, r)
  | RLast => olet x := last r in Ok (RElt x, r)
  | RSize => Ok (RNum (size r), r)
  | RDo => Ok (RElts (do_ r), r)
  | RCopy => let c := shallowCopy r in Ok (RElts (do_ c), c)
  end.

(** kernel/RunArray.st:67-104,168-201,345-381: the answers, up to the first
    error *)
Fixpoint rrun (os : list rop) (r : runarr A) : outcome (list (ranswer A)) :=
  match os with
  | [] => Ok []
  | o :: os =>
    match rstep o r with
    | Ok (a, r') => olet l := rrun os r' in Ok (a :: l)
    | Err => Ok [RError]
    | UB => UB | Abort => Abort | OutOfFuel => OutOfFuel
    end
  end.
End Run.
