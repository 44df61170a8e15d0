(** Streams on collections: kernel/PosStream.st, kernel/ReadStream.st,
    kernel/WriteStream.st, kernel/RWStream.st, with the generic methods of
    kernel/Stream.st they inherit.

    The collection is the list of its elements (an Array or any other
    ArrayedCollection; [nilA] is what the slots of a fresh one hold).  The
    sharing of the collection between a stream and its creator, or between
    two streams, is not modelled.

    An error signalled by design (reading a write-only stream, a position out
    of range, not enough elements) is the answer [SError], with the state of
    the stream after it; an index error inside a method is [Err]. *)
From Coq Require Import ZArith List Bool.
From Verif Require Import Base Hashed StrmSpec.
Import ListNotations.
Local Open Scope Z_scope.

Section Strm.
Context {A : Type}.
Variable nilA : A.
(** [=] of the elements *)
Variable eqb : A -> A -> bool.

(** kernel/PosStream.st:36, the instance variables *)
Record strm := ST { coll : list A; ptr : Z; endPtr : Z; access : Z }.

(** [size] of the collection: libgst primitive, see C41 *)
Definition csize (c : list A) : Z := Z.of_nat (length c).

(** [collection at: i]: an index out of range is an error;
    libgst/prims.def: VMpr_Object_basicAt *)
Definition cat (c : list A) (i : Z) : outcome A :=
  if i <? 1 then Err else
  match nth_error c (Z.to_nat (i - 1)) with Some x => Ok x | None => Err end.

(** [collection at: i put: x]; libgst/prims.def: VMpr_Object_basicAtPut *)
Definition cput (c : list A) (i : Z) (x : A) : outcome (list A) :=
  if (i <? 1) || (csize c <? i) then Err
  else Ok (replace (Z.to_nat (i - 1)) x c).

(** [c replaceFrom: a to: b with: d startingAt: p], for distinct c and d:
    kernel/ArrayColl.st and kernel/SeqCollect.st:536-558; an empty range does
    nothing *)
Definition creplace (c : list A) (a b : Z) (d : list A) (p : Z)
  : outcome (list A) :=
  let n := b - a + 1 in
  if n =? 0 then Ok c
  else if (a <? 1) || (n <? 0) || (csize c <? b) || (p <? 1)
          || (csize d <? p + n - 1) then Err
  else Ok (firstn (Z.to_nat (a - 1)) c
           ++ firstn (Z.to_nat n) (skipn (Z.to_nat (p - 1)) d)
           ++ skipn (Z.to_nat b) c).

(** [c copyFrom: 1 to: b]: kernel/ArrayColl.st:218-236 *)
Definition ccopy (c : list A) (b : Z) : outcome (list A) :=
  if (b <? 0) || (csize c <? b) then Err else Ok (firstn (Z.to_nat b) c).

(** [c copyEmpty: n]: kernel/Collection.st:524-529 *)
Definition copyEmpty (n : Z) : list A := repeat nilA (Z.to_nat n).

(** ** creation *)

(** kernel/ReadStream.st:41-47 and 66-71 *)
Definition readOn (c : list A) : strm := ST c 1 (csize c) 1.

(** kernel/ReadStream.st:49-64, from 1 *)
Definition readOnTo (c : list A) (n : Z) : outcome strm :=
  if csize c <? n then Err else Ok (ST c 1 n 1).

(** kernel/WriteStream.st:41-50,143-148 and kernel/PosStream.st:211-219 *)
Definition writeOn (c : list A) : strm := ST c 1 0 2.

(** kernel/WriteStream.st:52-61,150-154 *)
Definition writeWith (c : list A) : strm := ST c (csize c + 1) (csize c) 2.

(** kernel/RWStream.st:86-92, limit: -- sic: the argument is not used *)
Definition limit (n : Z) (s : strm) : strm :=
  ST (coll s) (ptr s) (csize (coll s)) (access s).

(** kernel/RWStream.st:41-49 *)
Definition rwOn (c : list A) : strm :=
  limit (csize c) (ST c 1 0 3).

(** kernel/RWStream.st:51-68, from 1 *)
Definition rwOnTo (c : list A) (n : Z) : outcome strm :=
  if csize c <? n then Err else Ok (limit n (ST c 1 0 3)).

(** kernel/RWStream.st:70-76 *)
Definition rwWith (c : list A) : strm := ST c (csize c + 1) (csize c) 3.

(** ** reading *)

(** [(access bitAnd: 1) = 0]: kernel/PosStream.st:77 *)
Definition noRead (s : strm) : bool := Z.land (access s) 1 =? 0.

(** kernel/PosStream.st:189-194 *)
Definition atEnd (s : strm) : bool := endPtr s <? ptr s.

(** kernel/PosStream.st:72-82; at the end EndOfStream is signalled, whose
    default is to answer nil: kernel/Stream.st:462-468 *)
Definition next (s : strm) : outcome (sanswer A * strm) :=
  if noRead s then Ok (SError, s)
  else if endPtr s <? ptr s then Ok (SNil, s)
  else olet x := cat (coll s) (ptr s) in
       Ok (SElt x, ST (coll s) (ptr s + 1) (endPtr s) (access s)).

(** kernel/PosStream.st:125-133 *)
Definition peek (s : strm) : outcome (sanswer A * strm) :=
  if noRead s then Ok (SError, s)
  else if endPtr s <? ptr s then Ok (SNil, s)
  else olet x := cat (coll s) (ptr s) in Ok (SElt x, s).

(** kernel/PosStream.st:107-123; also the state and the target afterwards *)
Definition nextAvailableInto (n : Z) (d : list A) (p : Z) (s : strm)
  : outcome (option Z * list A * strm) :=
  if noRead s then Ok (None, d, s)
  else
    let n := Z.min n (endPtr s - ptr s + 1) in
    olet d := creplace d p (p + n - 1) (coll s) (ptr s) in
    Ok (Some n, d, ST (coll s) (ptr s + n) (endPtr s) (access s)).

(** the loop of kernel/Stream.st:95-112 *)
Fixpoint nextInto (fuel : nat) (n read : Z) (d : list A) (p : Z) (s : strm)
  : outcome (option (list A) * strm) :=
  match fuel with
  | O => OutOfFuel
  | S fuel =>
    if read =? n then Ok (Some d, s)
    else if atEnd s then Ok (None, s)
    else
      olet t := nextAvailableInto (n - read) d (read + p) s in
      let '(k, d, s) := t in
      match k with
      | None => Ok (None, s)
      | Some k => nextInto fuel n (read + k) d p s
      end
  end.

(** kernel/Stream.st:65-75, next: with a number not negative *)
Definition nextN (n : Z) (s : strm) : outcome (sanswer A * strm) :=
  olet t := nextInto (S (S (Z.to_nat n))) n 0 (copyEmpty n) 1 s in
  match t with
  | (Some d, s) => Ok (SElts d, s)
  | (None, s) => Ok (SError, s)
  end.

(** kernel/PosStream.st:337-343 *)
Definition upToEnd (s : strm) := nextN (endPtr s - ptr s + 1) s.

(** the search of [indexOf:startingAt:ifAbsent:]: kernel/SeqCollect.st:395-396;
    [k] is the index of the first element of the list *)
Fixpoint searchFrom (x : A) (k : Z) (c : list A) : Z :=
  match c with
  | [] => 0
  | y :: c => if eqb y x then k else searchFrom x (k + 1) c
  end.

(** [c indexOf: x startingAt: i ifAbsent: [0]]: kernel/SeqCollect.st:380-398 *)
Definition indexOf0 (c : list A) (x : A) (i : Z) : outcome Z :=
  if (i <? 1) || (csize c <? i) then
    if i =? csize c + 1 then Ok 0 else Err
  else Ok (searchFrom x i (skipn (Z.to_nat (i - 1)) c)).

(** kernel/PosStream.st:345-356, upTo: *)
Definition upTo (x : A) (s : strm) : outcome (sanswer A * strm) :=
  olet r := indexOf0 (coll s) x (ptr s) in
  if r =? 0 then upToEnd s
  else
    olet t := nextN (r - ptr s) s in
    let '(a, s) := t in
    match a with
    | SError => Ok (SError, s)
    | _ => olet u := next s in Ok (a, snd u)
    end.

(** kernel/Stream.st:543-551, skipTo: *)
Fixpoint skipTo (fuel : nat) (x : A) (s : strm) : outcome (sanswer A * strm) :=
  match fuel with
  | O => OutOfFuel
  | S fuel =>
    if atEnd s then Ok (SBool false, s)
    else
      olet t := next s in
      match t with
      | (SElt y, s) => if eqb y x then Ok (SBool true, s) else skipTo fuel x s
      | (_, s) => Ok (SError, s)
      end
  end.

(** ** positions *)

(** kernel/PosStream.st:263-268 *)
Definition size (s : strm) : Z := endPtr s.

(** kernel/PosStream.st:228-236, position: *)
Definition setPosition (n : Z) (s : strm) : sanswer A * strm :=
  if (0 <=? n) && (n <=? size s)
  then (SDone, ST (coll s) (n + 1) (endPtr s) (access s))
  else (SError, s).

(** kernel/PosStream.st:221-226 *)
Definition position (s : strm) : Z := ptr s - 1.

(** kernel/PosStream.st:277-283, skip: *)
Definition skip (n : Z) (s : strm) : sanswer A * strm :=
  setPosition (Z.min (Z.max (position s + n) 0) (endPtr s)) s.

(** kernel/PosStream.st:135-147, peekFor: *)
Definition peekFor (x : A) (s : strm) : outcome (sanswer A * strm) :=
  if atEnd s then Ok (SBool false, s)
  else
    olet t := next s in
    match t with
    | (SElt y, s) =>
      if eqb y x then Ok (SBool true, s) else Ok (SBool false, snd (skip (-1) s))
    | (_, s) => Ok (SError, s)
    end.

(** kernel/PosStream.st:211-219, truncate *)
Definition truncate (s : strm) : sanswer A * strm :=
  if Z.land (access s) 2 =? 0 then (SError, s)
  else (SDone, ST (coll s) (ptr s) (ptr s - 1) (access s)).

(** kernel/PosStream.st:159-165 and kernel/RWStream.st:78-84, contents of
    streams that can be read; kernel/WriteStream.st:72-78, of write-only ones *)
Definition contents (s : strm) : outcome (list A) :=
  if access s =? 2 then ccopy (coll s) (ptr s - 1) else ccopy (coll s) (endPtr s).

(** kernel/PosStream.st:167-175, readStream of a ReadStream;
    kernel/WriteStream.st:114-122, of WriteStreams and (inherited)
    ReadWriteStreams *)
Definition readStream (s : strm) : outcome strm :=
  if access s =? 1 then readOnTo (coll s) (endPtr s)
  else readOnTo (coll s) (ptr s - 1).

(** ** writing *)

(** kernel/WriteStream.st:156-171 *)
Definition growCollection (c : list A) : outcome (list A) :=
  creplace (copyEmpty (Z.max (csize c * 2) 8)) 1 (csize c) c 1.

(** kernel/WriteStream.st:173-188 *)
Definition growCollectionTo (n : Z) (c : list A) : outcome (list A) :=
  if n <=? csize c then Ok c
  else if n <? csize c * 2 then growCollection c
  else creplace (copyEmpty n) 1 (csize c) c 1.

(** kernel/WriteStream.st:80-95, nextPut: *)
Definition nextPut (x : A) (s : strm) : outcome strm :=
  let '(ST c p e a) := s in
  olet ce := (if e <? p then
                olet c := (if csize c <? p then growCollection c else Ok c) in
                Ok (c, p)
              else Ok (c, e)) in
  let '(c, e) := ce in
  olet c := cput c p x in Ok (ST c (p + 1) e a).

(** kernel/WriteStream.st:97-112, next:putAll:startingAt: *)
Definition nextPutAllFrom (n : Z) (d : list A) (pos : Z) (s : strm)
  : outcome strm :=
  let '(ST c p e a) := s in
  let e' := p + n in
  olet c := (if csize c <? e' then growCollectionTo (e' - 1) c else Ok c) in
  olet c := creplace c p (e' - 1) d pos in
  Ok (ST c e' (if e <? e' then e' - 1 else e) a).

(** kernel/ArrayColl.st:nextPutAllOn: and kernel/Stream.st:297-303 *)
Definition nextPutAll (d : list A) (s : strm) : outcome strm :=
  nextPutAllFrom (csize d) d 1 s.

(** the loop of kernel/Stream.st:312-318, next:put: *)
Fixpoint nextPutN (n : nat) (x : A) (s : strm) : outcome strm :=
  match n with
  | O => Ok s
  | S n => olet s := nextPut x s in nextPutN n x s
  end.

(** kernel/WriteStream.st:135-141 *)
Definition emptyStream (s : strm) : strm := ST (coll s) 1 0 (access s).

(** the loop of kernel/WriteStream.st:130-131: [1 to: endPtr do: [:i |
    newCollection at: i put: (collection at: ptr - i)]] *)
Fixpoint reverseLoop (k : nat) (i e p : Z) (c d : list A) : outcome (list A) :=
  match k with
  | O => OutOfFuel
  | S k =>
    if e <? i then Ok d
    else olet x := cat c (p - i) in
         olet d := cput d i x in reverseLoop k (i + 1) e p c d
  end.

(** kernel/WriteStream.st:124-133, reverseContents of WriteStreams and
    (inherited) ReadWriteStreams *)
Definition reverseContents (s : strm) : outcome (list A) :=
  reverseLoop (S (Z.to_nat (endPtr s))) 1 (endPtr s) (ptr s) (coll s)
    (copyEmpty (ptr s - 1)).

End Strm.
Arguments strm A : clear implicits.
