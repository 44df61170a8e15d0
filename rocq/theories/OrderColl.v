(** OrderedCollection, kernel/OrderColl.st.  Indices count from 1, as in Smalltalk. *)
From Verif Require Import Base Hashed Replace.

Section OC.
  Context {A : Type} (nil : A).
  (** The named instance variables and the indexed ones. *)
  Record oc : Type := OC { firstIndex : Z; lastIndex : Z; store : list A }.

  Definition basicSize (c : oc) : Z := Z.of_nat (length (store c)).
  (** basicAt: and basicAt:put: fail outside the object: Err, never expected. *)
  Definition basicAt (s : list A) (i : Z) : outcome A :=
    if (1 <=? i) && (i <=? Z.of_nat (length s)) then Ok (nth (Z.to_nat (i - 1)) s nil) else Err.
  Definition basicAtPut (s : list A) (i : Z) (x : A) : outcome (list A) :=
    if (1 <=? i) && (i <=? Z.of_nat (length s)) then Ok (replace (Z.to_nat (i - 1)) x s) else Err.
  (** size, kernel/OrderColl.st:109-114. *)
  Definition size (c : oc) : Z := lastIndex c - firstIndex c + 1.
  (** initIndices, kernel/OrderColl.st:440-444, for a store [s]. *)
  Definition initIndices (s : list A) : oc :=
    let f := Z.max (Z.of_nat (length s) / 2) 1 in OC f (f - 1) s.
  (** new:, kernel/OrderColl.st:45-50; basicNew: fails for a negative size. *)
  Definition oc_new (n : Z) : outcome oc := if n <? 0 then Err else Ok (initIndices (repeat nil (Z.to_nat n))).
  (** growSize, kernel/SeqCollect.st:1113-1116. *)
  Definition growSize (c : oc) : Z := Z.max (size c) 8.
  (** growBy:shiftBy:, kernel/OrderColl.st:495-508; a failing primitive is Err. *)
  Definition growBy (delta shift : Z) (c : oc) : outcome oc :=
    if basicSize c + delta <? 0 then Err else
    let fresh := repeat nil (Z.to_nat (basicSize c + delta)) in
    match replace_range fresh (firstIndex c + shift) (lastIndex c + shift) (store c) (firstIndex c) with
    | Some s => Ok (OC (firstIndex c + shift) (lastIndex c + shift) s)
    | None => Err
    end.
  (** shrinkSize and shrink, kernel/OrderColl.st:468-485. *)
  Definition shrinkSize (c : oc) : Z := basicSize c / 3.
  Definition shrink (c : oc) : outcome oc :=
    let shift := Z.min (firstIndex c - 1) (shrinkSize c / 2) in
    let shr := Z.min (shrinkSize c) (basicSize c - (lastIndex c - shift)) in
    growBy (- shr) (- shift) c.
  Definition maybeShrink (c : oc) : outcome oc := if size c <? shrinkSize c then shrink c else Ok c.
  (** makeRoomFirstFor: and makeRoomLastFor:, kernel/OrderColl.st:452-466. *)
  Definition makeRoomFirstFor (n : Z) (c : oc) : outcome oc :=
    if firstIndex c <=? n then growBy (Z.max n (growSize c)) (Z.max n (growSize c)) c else Ok c.
  Definition makeRoomLastFor (n : Z) (c : oc) : outcome oc :=
    if basicSize c <? lastIndex c + n then growBy (Z.max n (growSize c)) 0 c else Ok c.

  (** The errors that the methods signal. *)
  Inductive signal : Type := IndexOutOfRange | EmptyCollection.
  Inductive result (B : Type) : Type := Answer (b : B) | Signal (s : signal).
  Arguments Answer {B}. Arguments Signal {B}.

  (** first and last, kernel/OrderColl.st:70-86. *)
  Definition first (c : oc) : outcome (result A) :=
    if firstIndex c <=? lastIndex c then olet x := basicAt (store c) (firstIndex c) in Ok (Answer x)
    else Ok (Signal IndexOutOfRange).
  Definition last (c : oc) : outcome (result A) :=
    if firstIndex c <=? lastIndex c then olet x := basicAt (store c) (lastIndex c) in Ok (Answer x)
    else Ok (Signal IndexOutOfRange).
  (** at: and at:put:, kernel/OrderColl.st:88-107. *)
  Definition at_ (i : Z) (c : oc) : outcome (result A) :=
    let index := i + firstIndex c - 1 in
    if (firstIndex c <=? index) && (index <=? lastIndex c)
    then olet x := basicAt (store c) index in Ok (Answer x) else Ok (Signal IndexOutOfRange).
  Definition at_put (i : Z) (x : A) (c : oc) : outcome (oc * result unit) :=
    let index := i + firstIndex c - 1 in
    if (firstIndex c <=? index) && (index <=? lastIndex c)
    then olet s := basicAtPut (store c) index x in Ok (OC (firstIndex c) (lastIndex c) s, Answer tt)
    else Ok (c, Signal IndexOutOfRange).
  (** add: and addLast:, kernel/OrderColl.st:116-124, 274-282. *)
  Definition add (x : A) (c : oc) : outcome oc :=
    olet c := (if lastIndex c =? basicSize c then growBy (growSize c) 0 c else Ok c) in
    let l := lastIndex c + 1 in
    olet s := basicAtPut (store c) l x in Ok (OC (firstIndex c) l s).
  (** addFirst:, kernel/OrderColl.st:264-272. *)
  Definition addFirst (x : A) (c : oc) : outcome oc :=
    olet c := (if firstIndex c <=? 1 then growBy (growSize c) (growSize c) c else Ok c) in
    let f := firstIndex c - 1 in
    olet s := basicAtPut (store c) f x in Ok (OC f (lastIndex c) s).
  (** lastIndex to: index by: -1 do: [:i | self basicAt: i + n put: (self basicAt: i)]: [count] rounds,
      starting at [i]. *)
  Fixpoint moveUp (count : nat) (n i : Z) (s : list A) : outcome (list A) :=
    match count with
    | O => Ok s
    | S count => olet x := basicAt s i in olet s := basicAtPut s (i + n) x in moveUp count n (i - 1) s
    end.
  (** add:afterIndex:, kernel/OrderColl.st:146-161. *)
  Definition addAfterIndex (x : A) (i : Z) (c : oc) : outcome (oc * result unit) :=
    if (0 <=? i) && (i <=? size c) then
      let index := i + firstIndex c in
      olet c := (if lastIndex c =? basicSize c then growBy (growSize c) 0 c else Ok c) in
      olet s := moveUp (Z.to_nat (lastIndex c - index + 1)) 1 (lastIndex c) (store c) in
      olet s := basicAtPut s index x in
      Ok (OC (firstIndex c) (lastIndex c + 1) s, Answer tt)
    else Ok (c, Signal IndexOutOfRange).
  (** aCollection do: [:element | self basicAt: index put: element. index := index + 1]. *)
  Fixpoint putAll (l : list A) (i : Z) (s : list A) : outcome (list A) :=
    match l with
    | [] => Ok s
    | x :: l => olet s := basicAtPut s i x in putAll l (i + 1) s
    end.
  (** addAll: and addAllLast:, kernel/OrderColl.st:171-183, 250-262, for another collection whose elements
      are [l]. *)
  Definition addAll (l : list A) (c : oc) : outcome oc :=
    olet c := makeRoomLastFor (Z.of_nat (length l)) c in
    olet s := putAll l (lastIndex c + 1) (store c) in
    Ok (OC (firstIndex c) (lastIndex c + Z.of_nat (length l)) s).
  (** addAllFirst:, kernel/OrderColl.st:235-248. *)
  Definition addAllFirst (l : list A) (c : oc) : outcome oc :=
    olet c := makeRoomFirstFor (Z.of_nat (length l)) c in
    let f := firstIndex c - Z.of_nat (length l) in
    olet s := putAll l f (store c) in Ok (OC f (lastIndex c) s).
  (** addAll:afterIndex:, kernel/OrderColl.st:194-212. *)
  Definition addAllAfterIndex (l : list A) (i : Z) (c : oc) : outcome (oc * result unit) :=
    if (0 <=? i) && (i <=? size c) then
      let index := i + firstIndex c in
      olet c := makeRoomLastFor (Z.of_nat (length l)) c in
      olet s := moveUp (Z.to_nat (lastIndex c - index + 1)) (Z.of_nat (length l)) (lastIndex c) (store c) in
      olet s := putAll l index s in
      Ok (OC (firstIndex c) (lastIndex c + Z.of_nat (length l)) s, Answer tt)
    else Ok (c, Signal IndexOutOfRange).
  (** The do: loop of addAll: and addAllFirst: when the argument is the receiver: do: (kernel/OrderColl.st:59-68)
      reads the slot [i] of the object in which the block stores at [j]; [count] rounds. *)
  Fixpoint selfPut (count : nat) (i j : Z) (s : list A) : outcome (list A) :=
    match count with
    | O => Ok s
    | S count => olet x := basicAt s i in olet s := basicAtPut s j x in selfPut count (i + 1) (j + 1) s
    end.
  (** c addAll: c and c addAllFirst: c, kernel/OrderColl.st:171-183, 235-248: lastIndex or firstIndex is
      updated before do: starts, and aCollection size is asked again for it. *)
  Definition addAllSelf (c : oc) : outcome oc :=
    olet c := makeRoomLastFor (size c) c in
    let index := lastIndex c + 1 in
    let l := lastIndex c + size c in
    olet s := selfPut (Z.to_nat (l - firstIndex c + 1)) (firstIndex c) index (store c) in
    Ok (OC (firstIndex c) l s).
  Definition addAllFirstSelf (c : oc) : outcome oc :=
    olet c := makeRoomFirstFor (size c) c in
    let f := firstIndex c - size c in
    olet s := selfPut (Z.to_nat (lastIndex c - f + 1)) f f (store c) in
    Ok (OC f (lastIndex c) s).
  (** removeFirst, kernel/OrderColl.st:284-299, and removeLast, 301-316. *)
  Definition removeFirst (c : oc) : outcome (oc * result A) :=
    if lastIndex c <? firstIndex c then Ok (c, Signal EmptyCollection)
    else
      olet x := basicAt (store c) (firstIndex c) in
      olet s := basicAtPut (store c) (firstIndex c) nil in
      olet c := maybeShrink (if lastIndex c =? firstIndex c then initIndices s
                             else OC (firstIndex c + 1) (lastIndex c) s) in
      Ok (c, Answer x).
  Definition removeLast (c : oc) : outcome (oc * result A) :=
    if lastIndex c <? firstIndex c then Ok (c, Signal EmptyCollection)
    else
      olet x := basicAt (store c) (lastIndex c) in
      olet s := basicAtPut (store c) (lastIndex c) nil in
      olet c := maybeShrink (if lastIndex c =? firstIndex c then initIndices s
                             else OC (firstIndex c) (lastIndex c - 1) s) in
      Ok (c, Answer x).
  (** removeAtIndex: and basicRemoveAtIndex:, kernel/OrderColl.st:349-379. *)
  Definition removeAtIndex (i : Z) (c : oc) : outcome (oc * result A) :=
    if lastIndex c <? firstIndex c then Ok (c, Signal EmptyCollection)
    else if (i <? 1) || (size c <? i) then Ok (c, Signal IndexOutOfRange)
    else
      olet x := basicAt (store c) (i + firstIndex c - 1) in
      match replace_range (store c) (i + firstIndex c - 1) (lastIndex c - 1) (store c) (i + firstIndex c) with
      | None => Err
      | Some s =>
        olet s := basicAtPut s (lastIndex c) nil in
        olet c := maybeShrink (if lastIndex c =? firstIndex c then initIndices s
                               else OC (firstIndex c) (lastIndex c - 1) s) in
        Ok (c, Answer x)
      end.
  (** do:, kernel/OrderColl.st:59-68: the elements visited, in order. *)
  Fixpoint do_ (count : nat) (i : Z) (s : list A) : outcome (list A) :=
    match count with
    | O => Ok []
    | S count => olet x := basicAt s i in olet l := do_ count (i + 1) s in Ok (x :: l)
    end.
  Definition elements_of (c : oc) : outcome (list A) := do_ (Z.to_nat (size c)) (firstIndex c) (store c).
End OC.
Arguments OC {A}.
Arguments firstIndex {A}.
Arguments lastIndex {A}.
Arguments store {A}.
Arguments Answer {B}.
Arguments Signal {B}.
