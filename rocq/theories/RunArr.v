(** RunArray, kernel/RunArray.st: a sequence held as runs of equal elements,
    with a cached position (the run last looked at and the indices of its
    first and last elements).

    The map of runs is an OrderedCollection of Associations; it is a list of
    pairs here (that OrderedCollections behave as lists is C20).  Every
    Association is made by the methods below and belongs to one RunArray, so
    no sharing is modelled.  An error signalled by a method is [Err]. *)
From Coq Require Import ZArith List Bool.
From Verif Require Import Base Hashed.
Import ListNotations.
Local Open Scope Z_scope.

Section RunArr.
Context {A : Type}.
(** [=] of the elements *)
Variable eqb : A -> A -> bool.

(** the instance variables, kernel/RunArray.st:39 *)
Record runarr := RA {
  rmap : list (A * Z);
  mapIndex : Z;
  firstInRun : Z;
  lastInRun : Z;
  rsize : Z }.

(** [map at: i] of an OrderedCollection: kernel/OrderColl.st:88-97, an index
    out of range is an error *)
Definition mapAt (m : list (A * Z)) (i : Z) : outcome (A * Z) :=
  if (i <? 1) then Err else
  match nth_error m (Z.to_nat (i - 1)) with Some r => Ok r | None => Err end.


(** [run value: v], for the run [map at: i] fetched earlier:
    kernel/RunArray.st:225,291 *)
Definition setValue (m : list (A * Z)) (i v : Z) : list (A * Z) :=
  match nth_error m (Z.to_nat (i - 1)) with
  | Some r => replace (Z.to_nat (i - 1)) (fst r, v) m
  | None => m
  end.

(** [map add: r afterIndex: i] and [map addAll: rs afterIndex: i]:
    kernel/OrderColl.st:146-161 and 196-213 *)
Definition mapAddAll (m rs : list (A * Z)) (i : Z) : outcome (list (A * Z)) :=
  if (i <? 0) || (Z.of_nat (length m) <? i) then Err
  else Ok (firstn (Z.to_nat i) m ++ rs ++ skipn (Z.to_nat i) m).

(** [map removeAtIndex: i]: kernel/OrderColl.st:349-378 *)
Definition mapRemove (m : list (A * Z)) (i : Z) : outcome (list (A * Z)) :=
  if (i <? 1) || (Z.of_nat (length m) <? i) then Err
  else Ok (firstn (Z.to_nat (i - 1)) m ++ skipn (Z.to_nat i) m).

(** the loop of kernel/RunArray.st:313-318; every round but the last moves
    to the run before, and [map at: 0] is an error, so the length of the map
    is enough fuel *)
Fixpoint goDown (fuel : nat) (m : list (A * Z)) (ix mi f : Z)
  : outcome (Z * Z * Z) :=
  match fuel with
  | O => OutOfFuel
  | S n =>
    olet r := mapAt m (mi - 1) in
    if ix <? f - snd r then goDown n m ix (mi - 1) (f - snd r)
    else Ok (mi - 1, f - snd r, f - 1)
  end.

(** the loop of kernel/RunArray.st:320-325 *)
Fixpoint goUp (fuel : nat) (m : list (A * Z)) (ix mi l : Z)
  : outcome (Z * Z * Z) :=
  match fuel with
  | O => OutOfFuel
  | S n =>
    olet r := mapAt m (mi + 1) in
    if l + snd r <? ix then goUp n m ix (mi + 1) (l + snd r)
    else Ok (mi + 1, l + 1, l + snd r)
  end.

(** kernel/RunArray.st:296-327, updateMapIndexFor: *)
Definition updateMapIndex (ix : Z) (r : runarr) : outcome runarr :=
  let '(RA m mi f l s) := r in
  if (f <=? ix) && (ix <=? l) then Ok r
  else if ix =? 0 then Ok (RA m 0 0 0 s)
  else if ix <? 0 then Err
  else if s <? ix then Err
  else
    olet t := (if ix <? f then goDown (S (length m)) m ix mi f
               else goUp (S (length m)) m ix mi l) in
    let '(mi', f', l') := t in Ok (RA m mi' f' l' s).

(** kernel/RunArray.st:67-73, at: *)
Definition at_ (ix : Z) (r : runarr) : outcome (A * runarr) :=
  olet r := updateMapIndex ix r in
  olet e := mapAt (rmap r) (mapIndex r) in
  Ok (fst e, r).

(** kernel/RunArray.st:85-90, first *)
Definition first (r : runarr) : outcome A :=
  olet e := mapAt (rmap r) 1 in Ok (fst e).

(** kernel/RunArray.st:92-97, last *)
Definition last (r : runarr) : outcome A :=
  olet e := mapAt (rmap r) (Z.of_nat (length (rmap r))) in Ok (fst e).

(** kernel/RunArray.st:99-104, size *)
Definition size (r : runarr) : Z := rsize r.

(** kernel/RunArray.st:196-201, do: -- the elements in order of visit;
    [timesRepeat:] of a negative number does nothing (kernel/Integer.st:58-65) *)
Definition do_ (r : runarr) : list A :=
  flat_map (fun e => repeat (fst e) (Z.to_nat (snd e))) (rmap r).

(** kernel/RunArray.st:203-210, afterMapIndexAdd:copiesOf: *)
Definition afterMapIndexAdd (n : Z) (x : A) (r : runarr) : outcome runarr :=
  let '(RA m mi f l s) := r in
  olet m := mapAddAll m [(x, n)] mi in Ok (RA m mi f l s).

(** kernel/RunArray.st:274-294, splitAt:decrementBy: -- [run] stays the run
    found first, at [mapIndex] of the receiver on entry, also after the
    second call of updateMapIndexFor: *)
Definition splitAt (ix i : Z) (r : runarr) : outcome runarr :=
  if ix <? 1 then Ok r
  else if rsize r <? ix then Ok r
  else
    let p := mapIndex r in
    olet run := mapAt (rmap r) p in
    let v := snd run in
    olet vr := (if ix =? firstInRun r then
                  let m := setValue (rmap r) p (v - i) in
                  olet r := updateMapIndex (ix - 1)
                              (RA m (mapIndex r) (firstInRun r) (lastInRun r)
                                  (rsize r)) in
                  Ok (v - i, r)
                else Ok (v, r)) in
    let '(v, r) := vr in
    (* [run value: run value - i] if anIndex = lastInRun, overwritten at
       once by the next statement *)
    let m := setValue (rmap r) p (ix - firstInRun r + (1 - i)) in
    afterMapIndexAdd (lastInRun r - ix) (fst run)
      (RA m (mapIndex r) (firstInRun r) (lastInRun r) (rsize r)).

(** kernel/RunArray.st:212-230, at:splitAndPut:decrementBy: *)
Definition atSplitAndPut (ix : Z) (x : A) (i : Z) (r : runarr)
  : outcome runarr :=
  olet er := at_ (Z.max 1 ix) r in
  let '(e, r) := er in
  if eqb e x then
    olet run := mapAt (rmap r) (mapIndex r) in
    Ok (RA (setValue (rmap r) (mapIndex r) (snd run + (1 - i)))
           (mapIndex r) (firstInRun r) (lastInRun r) (rsize r))
  else
    olet r := splitAt ix i r in
    afterMapIndexAdd 1 x r.

(** kernel/RunArray.st:75-83, at:put: *)
Definition atPut (ix : Z) (x : A) (r : runarr) : outcome runarr :=
  atSplitAndPut ix x 1 r.

(** kernel/RunArray.st:157-166, add:afterIndex: *)
Definition addAfter (x : A) (ix : Z) (r : runarr) : outcome runarr :=
  atSplitAndPut ix x 0
    (RA (rmap r) (mapIndex r) (firstInRun r) (lastInRun r) (rsize r + 1)).

(** kernel/RunArray.st:142-148, addFirst: *)
Definition addFirst (x : A) (r : runarr) := addAfter x 0 r.

(** kernel/RunArray.st:150-155, addLast: -- [self size] is evaluated before
    the size is incremented *)
Definition addLast (x : A) (r : runarr) := addAfter x (rsize r) r.

(** kernel/RunArray.st:448-472, asRunArrayMap of a sequenceable collection;
    [prev] and the number of elements of its run so far (the source keeps
    the index where the run starts) *)
Fixpoint runsFrom (prev : A) (n : Z) (l : list A) : list (A * Z) :=
  match l with
  | [] => [(prev, n)]
  | x :: l' =>
    if eqb x prev then runsFrom prev (n + 1) l'
    else (prev, n) :: runsFrom x 1 l'
  end.

(** kernel/RunArray.st:448-472: [self at: 1] is an error when empty *)
Definition asRunArrayMap (l : list A) : outcome (list (A * Z)) :=
  match l with [] => Err | x :: l' => Ok (runsFrom x 1 l') end.

(** kernel/RunArray.st:258-272, packTwoRuns: *)
Definition packTwoRuns (k : Z) (r : runarr) : outcome runarr :=
  if k <? 1 then Ok r
  else if rsize r <? k then Ok r
  else
    let '(RA m mi f l s) := r in
    olet run := mapAt m k in
    olet next := mapAt m (k + 1) in
    if eqb (fst run) (fst next) then
      olet m := mapRemove (setValue m k (snd run + snd next)) (k + 1) in
      Ok (RA m mi f l s)
    else Ok r.

(** kernel/RunArray.st:106-122, addAll:afterIndex: of a sequenceable
    collection *)
Definition addAllAfter (c : list A) (ix : Z) (r : runarr) : outcome runarr :=
  match c with
  | [] => Ok r
  | _ =>
    olet nm := asRunArrayMap c in
    olet r := updateMapIndex ix r in
    olet r := splitAt ix 0 r in
    olet m := mapAddAll (rmap r) nm (mapIndex r) in
    let r := RA m (mapIndex r) (firstInRun r) (lastInRun r) (rsize r) in
    olet r := packTwoRuns (mapIndex r + Z.of_nat (length nm) - 1) r in
    olet r := packTwoRuns (mapIndex r) r in
    Ok (RA (rmap r) (mapIndex r) (firstInRun r) (lastInRun r)
           (rsize r + Z.of_nat (length c)))
  end.

(** kernel/RunArray.st:232-241 and 250-256, map: and initialize *)
Definition withMap (m : list (A * Z)) : runarr :=
  let s := fold_left (fun sz e => sz + snd e) m 0 in
  match m with
  | [] => RA m 0 0 0 s
  | e :: _ => RA m 1 1 (snd e) s
  end.

(** kernel/RunArray.st:49-56, RunArray class >> new *)
Definition new_ : runarr := withMap [].

(** kernel/RunArray.st:402-411, asRunArray *)
Definition asRunArray (l : list A) : outcome runarr :=
  olet m := asRunArrayMap l in Ok (withMap m).

(** kernel/RunArray.st:168-175, shallowCopy *)
Definition shallowCopy (r : runarr) : runarr := withMap (rmap r).

(** kernel/RunArray.st:345-367, removeAtIndex: *)
Definition removeAtIndex (ix : Z) (r : runarr) : outcome (A * runarr) :=
  olet r := updateMapIndex ix r in
  let '(RA m mi f l s) := r in
  olet run := mapAt m mi in
  let s := s - 1 in
  if negb (snd run =? 1) then
    Ok (fst run, RA (setValue m mi (snd run - 1)) mi f (l - 1) s)
  else
    olet m := mapRemove m mi in
    let n := Z.of_nat (length m) in
    if n <? mi then
      olet e := mapAt m n in
      Ok (fst run, RA m n (s - snd e + 1) s s)
    else
      olet e := mapAt m mi in
      Ok (fst run, RA m mi f (f + snd e - 1) s).

(** kernel/RunArray.st:369-374, removeFirst *)
Definition removeFirst (r : runarr) := removeAtIndex 1 r.

(** kernel/RunArray.st:376-381, removeLast *)
Definition removeLast (r : runarr) := removeAtIndex (rsize r) r.

(** kernel/RunArray.st:383-388, =, of two RunArrays: the maps are compared
    run by run (Association>>=, kernel/Association.st) *)
Fixpoint mapEq (m m' : list (A * Z)) : bool :=
  match m, m' with
  | [], [] => true
  | e :: m, e' :: m' =>
    eqb (fst e) (fst e') && (snd e =? snd e') && mapEq m m'
  | _, _ => false
  end.

(** kernel/RunArray.st:383-388 *)
Definition equal (r r' : runarr) : bool := mapEq (rmap r') (rmap r).

(** kernel/RunArray.st:329-343, indexOf:startingAt:ifAbsent:; [asIndex x k]
    is [x = k] for an element [x] and the start index [k] (sic: the source
    compares each element with anIndex, not with anObject); [None] when
    aBlock is evaluated *)
Fixpoint indexOf (asIndex : A -> Z -> bool) (x : A) (start l : Z)
    (m : list (A * Z)) : option Z :=
  match m with
  | [] => None
  | e :: m =>
    let f := l + 1 in
    let l := l + snd e in
    if (start <=? f) && asIndex (fst e) start then Some f
    else indexOf asIndex x start l m
  end.

End RunArr.
Arguments runarr A : clear implicits.
