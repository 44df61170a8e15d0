(** A stream as a sequence with a cursor. *)
From Coq Require Import ZArith List Bool.
Import ListNotations.
Local Open Scope Z_scope.

(** the three kinds of streams *)
Inductive kind := KRead | KWrite | KReadWrite.

(** answers of the messages *)
Inductive sanswer (A : Type) :=
| SElt (x : A) | SNil | SBool (b : bool) | SNum (n : Z) | SElts (l : list A)
| SDone | SError.
Arguments SElt {A}. Arguments SNil {A}. Arguments SBool {A}. Arguments SNum {A}.
Arguments SElts {A}. Arguments SDone {A}. Arguments SError {A}.

Section Spec.
Context {A : Type}.
Variable eqb : A -> A -> bool.

(** messages *)
Inductive sop :=
| ONext | OPeek | OPeekFor (x : A) | ONextN (n : nat) | OUpToEnd | OSkipTo (x : A)
| OAtEnd | OPosition | OSetPosition (n : Z) | OSkip (n : Z) | OReset | OSetToEnd
| OSize | OIsEmpty | OContents
| OPut (x : A) | OPutAll (l : list A) | OPutN (n : nat) (x : A)
| OTruncate | OEmpty.

(** which messages the kinds of streams understand; [next] and [peek] of a
    write-only stream are understood and signal an error *)
Definition understands (k : kind) (o : sop) : bool :=
  match o with
  | OPeekFor _ | ONextN _ | OUpToEnd | OSkipTo _ =>
    match k with KWrite => false | _ => true end
  | OPut _ | OPutAll _ | OPutN _ _ | OTruncate | OEmpty =>
    match k with KRead => false | _ => true end
  | _ => true
  end.

(** overwrite from the cursor on, extending the sequence if need be *)
Definition overwrite (l : list A) (c : nat) (xs : list A) : list A :=
  firstn c l ++ xs ++ skipn (c + length xs) l.

(** elements up to the first equal to [x], exclusive; the number of elements
    consumed by the search; whether it was found *)
Fixpoint count_to (x : A) (l : list A) : nat * bool :=
  match l with
  | [] => (O, false)
  | y :: l =>
    if eqb y x then (1%nat, true)
    else let '(n, b) := count_to x l in (S n, b)
  end.

(** answer, new sequence, new cursor; the cursor is the number of elements
    before it *)
Definition sspec (k : kind) (o : sop) (l : list A) (c : nat)
  : sanswer A * list A * nat :=
  let rest := skipn c l in
  match o with
  | ONext =>
    match k, rest with
    | KWrite, _ => (SError, l, c)
    | _, [] => (SNil, l, c)
    | _, x :: _ => (SElt x, l, S c)
    end
  | OPeek =>
    match k, rest with
    | KWrite, _ => (SError, l, c)
    | _, [] => (SNil, l, c)
    | _, x :: _ => (SElt x, l, c)
    end
  | OPeekFor x =>
    match rest with
    | [] => (SBool false, l, c)
    | y :: _ => if eqb y x then (SBool true, l, S c) else (SBool false, l, c)
    end
  | ONextN n =>
    if (n <=? length rest)%nat then (SElts (firstn n rest), l, (c + n)%nat)
    else (SError, l, length l)
  | OUpToEnd => (SElts rest, l, length l)
  | OSkipTo x => let '(n, b) := count_to x rest in (SBool b, l, (c + n)%nat)
  | OAtEnd => (SBool (match rest with [] => true | _ => false end), l, c)
  | OPosition => (SNum (Z.of_nat c), l, c)
  | OSetPosition n =>
    if (0 <=? n) && (n <=? Z.of_nat (length l)) then (SDone, l, Z.to_nat n)
    else (SError, l, c)
  | OSkip n =>
    (SDone, l, Z.to_nat (Z.min (Z.max (Z.of_nat c + n) 0) (Z.of_nat (length l))))
  | OReset => (SDone, l, O)
  | OSetToEnd => (SDone, l, length l)
  | OSize => (SNum (Z.of_nat (length l)), l, c)
  | OIsEmpty => (SBool (match l with [] => true | _ => false end), l, c)
  | OContents =>
    match k with
    | KWrite => (SElts (firstn c l), l, c)   (* truncated at the cursor *)
    | _ => (SElts l, l, c)
    end
  | OPut x => (SElt x, overwrite l c [x], S c)
  | OPutAll xs => (SDone, overwrite l c xs, (c + length xs)%nat)
  | OPutN n x => (SElt x, overwrite l c (repeat x n), (c + n)%nat)
  | OTruncate => (SDone, firstn c l, c)
  | OEmpty => (SDone, [], O)
  end.

Fixpoint shistory (k : kind) (os : list sop) (l : list A) (c : nat)
  : list (sanswer A) :=
  match os with
  | [] => []
  | o :: os => let '(a, l, c) := sspec k o l c in a :: shistory k os l c
  end.

(** sequence and cursor after a history *)
Fixpoint sfinal (k : kind) (os : list sop) (l : list A) (c : nat) : list A * nat :=
  match os with
  | [] => (l, c)
  | o :: os => let '(_, l, c) := sspec k o l c in sfinal k os l c
  end.

(** ** searching for a sequence: [skipToAll:] and [upToAll:] *)

(** [p] starts at offset [i] of [l] *)
Definition occurs_at (p l : list A) (i : nat) : Prop :=
  firstn (length p) (skipn i l) = p.

(** the offset of the first occurrence *)
Definition first_occurrence (p l : list A) (i : nat) : Prop :=
  (i + length p <= length l)%nat /\ occurs_at p l i /\ forall j, (j < i)%nat -> ~ occurs_at p l j.
End Spec.
Arguments sop A : clear implicits.
