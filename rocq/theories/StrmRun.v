(** Histories of messages to streams, and the search of a sequence. *)
From Coq Require Import ZArith List Bool.
From Verif Require Import Base Hashed Strm StrmSpec.
Import ListNotations.
Local Open Scope Z_scope.

Section Run.
Context {A : Type}.
Variable nilA : A.
Variable eqb : A -> A -> bool.

(** dispatch of the messages to the methods of [Strm.v]; reset, setToEnd and
    isEmpty: kernel/PosStream.st:204-209,248-261 *)
Definition sstep (o : sop A) (s : strm A) : outcome (sanswer A * strm A) :=
  match o with
  | ONext => next s
  | OPeek => peek s
  | OPeekFor x => peekFor eqb x s
  | ONextN n => nextN nilA (Z.of_nat n) s
  | OUpToEnd => upToEnd nilA s
  | OSkipTo x => skipTo eqb (S (length (coll s))) x s
  | OAtEnd => Ok (SBool (atEnd s), s)
  | OPosition => Ok (SNum (position s), s)
  | OSetPosition n => Ok (setPosition n s)
  | OSkip n => Ok (skip n s)
  | OReset => Ok (setPosition 0 s)
  | OSetToEnd => Ok (setPosition (size s) s)
  | OSize => Ok (SNum (size s), s)
  | OIsEmpty => Ok (SBool (endPtr s =? 0), s)
  | OContents => olet l := contents s in Ok (SElts l, s)
  | OPut x => olet s := nextPut nilA x s in Ok (SElt x, s)
  | OPutAll l => olet s := nextPutAll nilA l s in Ok (SDone, s)
  | OPutN n x => olet s := nextPutN nilA n x s in Ok (SElt x, s)
  | OTruncate => Ok (truncate s)
  | OEmpty => Ok (SDone, emptyStream s)
  end.

(** the answers to a history of messages; kernel/PosStream.st,
    kernel/WriteStream.st *)
Fixpoint srun (os : list (sop A)) (s : strm A) : outcome (list (sanswer A)) :=
  match os with
  | [] => Ok []
  | o :: os =>
    olet t := sstep o s in
    let '(a, s) := t in
    olet l := srun os s in Ok (a :: l)
  end.

(** the stream after a history of messages; kernel/PosStream.st,
    kernel/WriteStream.st *)
Fixpoint sexec (os : list (sop A)) (s : strm A) : outcome (strm A) :=
  match os with
  | [] => Ok s
  | o :: os => olet t := sstep o s in sexec os (snd t)
  end.
End Run.
