(** SortedCollection, kernel/SortCollect.st, on top of the model of OrderedCollection.  The sort block is a
    function without side effects.  Indices count from 1 and are those of basicAt:. *)
From Verif Require Import Base Hashed Replace OrderColl.
Local Open Scope Z_scope.

Section SC.
  Context {A : Type} (nil : A) (R : A -> A -> bool).
  (** Whether makeHeap inserts [added] elements one by one in a heap of [size] elements, instead of rebuilding
      it: the comparison of floating point numbers of kernel/SortCollect.st:423 is left open. *)
  Context (one_by_one : Z -> Z -> bool).

  (** basicSwap:with:, kernel/SortCollect.st:533-542. *)
  Definition swap (s : list A) (i j : Z) : outcome (list A) :=
    olet saved := basicAt nil s i in
    olet y := basicAt nil s j in
    olet s := basicAtPut s i y in
    basicAtPut s j saved.
  (** basicSwap:ifAfter:, kernel/SortCollect.st:522-531. *)
  Definition swapIfAfter (s : list A) (i j : Z) : outcome (list A) :=
    olet a := basicAt nil s i in
    olet b := basicAt nil s j in
    if R a b then Ok s
    else olet s := basicAtPut s i b in basicAtPut s j a.

  (** The two inner loops of sortFrom:to:, kernel/SortCollect.st:619-631: the index at which each stops. *)
  Fixpoint scanUp (fuel : nat) (s : list A) (pivot : A) (last i : Z) : outcome Z :=
    if i <=? last then
      olet x := basicAt nil s i in
      if R x pivot then match fuel with O => OutOfFuel | S n => scanUp n s pivot last (i + 1) end else Ok i
    else Ok i.
  Fixpoint scanDown (fuel : nat) (s : list A) (pivot : A) (first i : Z) : outcome Z :=
    if first <=? i then
      olet x := basicAt nil s i in
      if R pivot x then match fuel with O => OutOfFuel | S n => scanDown n s pivot first (i - 1) end else Ok i
    else Ok i.
  (** The outer loop, kernel/SortCollect.st:617-637: the store, smaller and larger when it ends. *)
  Fixpoint partition (fuel : nat) (s : list A) (pivot : A) (first last smaller larger : Z)
    : outcome (list A * Z * Z) :=
    olet i := scanUp (length s) s pivot last smaller in
    olet j := scanDown (length s) s pivot first larger in
    if i <? j then
      match fuel with
      | O => OutOfFuel
      | S n => olet s := swap s i j in partition n s pivot first last (i + 1) (j - 1)
      end
    else Ok (s, i, j).
  (** sortFrom:to:, kernel/SortCollect.st:591-645. *)
  Fixpoint sortFrom (fuel : nat) (s : list A) (first last : Z) : outcome (list A) :=
    if last - first <? 2 then
      if first <? last then swapIfAfter s first last else Ok s
    else
      match fuel with
      | O => OutOfFuel
      | S n =>
        let mid := (first + last) / 2 in
        olet s := swapIfAfter s first mid in
        olet s := swapIfAfter s mid last in
        olet s := swapIfAfter s first last in
        olet pivot := basicAt nil s mid in
        olet (s, smaller, larger) := partition (length s) s pivot first last first last in
        let '(smaller, larger) := if larger <? smaller then (smaller, larger) else (smaller + 1, larger - 1) in
        olet s := (if first <? larger then sortFrom n s first larger else Ok s) in
        if smaller <? last then sortFrom n s smaller last else Ok s
      end.
  (** Enough rounds for any store (see SortCollSort.v). *)
  Definition sort_store (s : list A) (first last : Z) : outcome (list A) :=
    sortFrom (2 * length s + 2) s first last.

  (** The loop by which a heap is reordered, kernel/SortCollect.st:386-409 and 483-505: the item at
      parentIndex goes down until none of its children is greater. *)
  Fixpoint siftDown (fuel : nat) (s : list A) (delta heapSize parentIndex childIndex : Z) (parent : A)
    : outcome (list A) :=
    if heapSize <? childIndex then Ok s
    else
      olet child := basicAt nil s (delta + childIndex) in
      olet (child, childIndex) :=
        (if childIndex =? heapSize then Ok (child, childIndex)
         else
           olet childB := basicAt nil s (delta + childIndex + 1) in
           Ok (if R child childB then (childB, childIndex + 1) else (child, childIndex))) in
      if R child parent then Ok s
      else
        olet s := basicAtPut s (delta + childIndex) parent in
        olet s := basicAtPut s (delta + parentIndex) child in
        match fuel with
        | O => OutOfFuel
        | S n => siftDown n s delta heapSize childIndex (childIndex + childIndex) parent
        end.
  (** buildHeap, kernel/SortCollect.st:375-410: [start] down to 1. *)
  Fixpoint buildLoop (start : nat) (s : list A) (delta heapSize : Z) : outcome (list A) :=
    match start with
    | O => Ok s
    | S k =>
      let p := Z.of_nat start in
      olet parent := basicAt nil s (delta + p) in
      olet s := siftDown (length s) s delta heapSize p (p + p) parent in
      buildLoop k s delta heapSize
    end.
  Definition buildHeap (s : list A) (first last : Z) : outcome (list A) :=
    buildLoop (Z.to_nat ((last - first + 1 + 1) / 2)) s (first - 1) (last - (first - 1)).
  (** percolateDown, kernel/SortCollect.st:464-506: the store; lastOrdered is decremented by the caller. *)
  Definition percolateDown (s : list A) (first lastOrdered : Z) : outcome (list A) :=
    olet s := swap s lastOrdered first in
    let lastOrdered := lastOrdered - 1 in
    let delta := first - 1 in
    olet parent := basicAt nil s (delta + 1) in
    siftDown (length s) s delta (lastOrdered - delta) 1 2 parent.
  (** percolateUp, kernel/SortCollect.st:442-462, for the element at the index [lastOrdered] (that is, after
      the increment). *)
  Fixpoint upLoop (fuel : nat) (s : list A) (first hole : Z) (item : A) : outcome (list A) :=
    if 0 <? hole then
      let parentIndex := (hole - 1) / 2 in
      olet parent := basicAt nil s (first + parentIndex) in
      if R parent item then
        olet s := basicAtPut s (first + hole) parent in
        match fuel with O => OutOfFuel | S n => upLoop n s first parentIndex item end
      else basicAtPut s (first + hole) item
    else basicAtPut s (first + hole) item.
  Definition percolateUp (s : list A) (first lastOrdered : Z) : outcome (list A) :=
    olet item := basicAt nil s lastOrdered in
    upLoop (length s) s first (lastOrdered - first) item.
  (** [n] times percolateUp, [lastOrdered] being its value before the first. *)
  Fixpoint ups (n : nat) (s : list A) (first lastOrdered : Z) : outcome (list A) :=
    match n with
    | O => Ok s
    | S n => olet s := percolateUp s first (lastOrdered + 1) in ups n s first (lastOrdered + 1)
    end.
  (** [n] times percolateDown. *)
  Fixpoint downs (n : nat) (s : list A) (first lastOrdered : Z) : outcome (list A) :=
    match n with
    | O => Ok s
    | S n => olet s := percolateDown s first lastOrdered in downs n s first (lastOrdered - 1)
    end.

  (** insertionIndexFor:upTo:, kernel/SortCollect.st:734-749. *)
  Fixpoint insertion (fuel : nat) (s : list A) (x : A) (low high : Z) : outcome Z :=
    if high <? low then Ok low
    else
      let mid := (high + low) / 2 in
      olet y := basicAt nil s mid in
      match fuel with
      | O => OutOfFuel
      | S n => if R y x then insertion n s x (mid + 1) high else insertion n s x low (mid - 1)
      end.
  (** The loop of merge, kernel/SortCollect.st:562-570; [l] are the elements from the greatest on. *)
  Fixpoint mergeLoop (l : list A) (s : list A) (first add i : Z) : outcome (list A) :=
    match l with
    | [] => Ok s
    | x :: l =>
      olet newIndex := insertion (length s) s x first i in
      match replace_range s (newIndex + add) (i + add) s newIndex with
      | None => Err
      | Some s =>
        let add := add - 1 in
        olet s := basicAtPut s (newIndex + add) x in
        mergeLoop l s first add (newIndex - 1)
      end
    end.
  (** merge, kernel/SortCollect.st:544-574.  asSortedCollection: (kernel/Collection.st:481-489) makes a new
      collection and sorts it by sortBlock: (kernel/SortCollect.st:206-215); reverseDo: goes backwards. *)
  Definition merge_store (s : list A) (first last lastOrdered : Z) : outcome (list A) :=
    olet s := sort_store s (lastOrdered + 1) last in
    olet l := do_ nil (Z.to_nat (last - lastOrdered)) (lastOrdered + 1) s in
    olet l := sort_store l 1 (Z.of_nat (length l)) in
    let add := Z.of_nat (length l) in
    mergeLoop (rev l) s first add (last - add).

  (** The instance variables lastOrdered and sorted besides those of OrderedCollection. *)
  Record sc : Type := SC { base : @oc A; lastOrdered : Z; sorted : bool }.
  (** initIndices, kernel/SortCollect.st:352-358. *)
  Definition initIndices (s : list A) : sc := SC (OC 1 0 s) 0 false.
  (** new:, kernel/SortCollect.st:67-72. *)
  Definition sc_new (n : Z) : outcome sc := if n <? 0 then Err else Ok (initIndices (repeat nil (Z.to_nat n))).
  Definition first_ (c : sc) := firstIndex (base c).
  Definition last_ (c : sc) := lastIndex (base c).
  Definition with_store (c : sc) (s : list A) : sc := SC (OC (first_ c) (last_ c) s) (lastOrdered c) (sorted c).
  (** growBy:shiftBy:, kernel/OrderColl.st:496-509: the new object comes from copyEmpty:
      (kernel/SortCollect.st:313-319), whose lastOrdered and sorted are those of initIndices. *)
  Definition regrown (o : @oc A) : sc := SC o 0 false.
  Definition grow_for (n : Z) (c : sc) : outcome sc :=
    olet o := growBy nil n 0 (base c) in Ok (regrown o).
  Definition shrink_ (c : sc) : outcome sc :=
    if size (base c) <? shrinkSize (base c)
    then olet o := shrink nil (base c) in Ok (regrown o) else Ok c.

  (** makeHeap, kernel/SortCollect.st:412-430. *)
  Definition makeHeap (c : sc) : outcome sc :=
    let added := last_ c - lastOrdered c in
    olet s := (if one_by_one added (size (base c))
               then ups (Z.to_nat added) (store (base c)) (first_ c) (lastOrdered c)
               else buildHeap (store (base c)) (first_ c) (last_ c)) in
    Ok (SC (OC (first_ c) (last_ c) s) (last_ c) false).
  (** merge, for the collection. *)
  Definition merge (c : sc) : outcome sc :=
    olet s := merge_store (store (base c)) (first_ c) (last_ c) (lastOrdered c) in
    Ok (SC (OC (first_ c) (last_ c) s) (last_ c) true).
  (** The test at the beginning of last and removeLast, kernel/SortCollect.st:142-143, 182-183. *)
  Definition order (c : sc) : outcome sc :=
    if lastOrdered c =? last_ c then Ok c else if sorted c then merge c else makeHeap c.
  (** beConsistent, kernel/SortCollect.st:235-250, with sortHeap, 432-440. *)
  Definition beConsistent (c : sc) : outcome sc :=
    if lastOrdered c <? first_ c then
      olet s := sort_store (store (base c)) (first_ c) (last_ c) in
      Ok (SC (OC (first_ c) (last_ c) s) (last_ c) true)
    else
      olet c := order c in
      if sorted c then Ok c
      else
        olet s := downs (Z.to_nat (size (base c) - 1)) (store (base c)) (first_ c) (lastOrdered c) in
        Ok (SC (OC (first_ c) (last_ c) s) (last_ c) true).

  (** add:, kernel/OrderColl.st:117-124. *)
  Definition add (x : A) (c : sc) : outcome sc :=
    olet c := (if last_ c =? basicSize (base c) then grow_for (growSize (base c)) c else Ok c) in
    let l := last_ c + 1 in
    olet s := basicAtPut (store (base c)) l x in
    Ok (SC (OC (first_ c) l s) (lastOrdered c) (sorted c)).
  (** addAll:, kernel/OrderColl.st:171-184, with makeRoomLastFor:, kernel/SortCollect.st:360-367. *)
  Definition addAll (l : list A) (c : sc) : outcome sc :=
    let n := Z.of_nat (length l) in
    olet c := (if basicSize (base c) <? last_ c + n
               then olet o := growBy nil (Z.max n (growSize (base c))) (1 - first_ c) (base c) in Ok (regrown o)
               else Ok c) in
    olet s := putAll l (last_ c + 1) (store (base c)) in
    Ok (SC (OC (first_ c) (last_ c + n) s) (lastOrdered c) (sorted c)).

  (** What a message answers: None when an error is signalled. *)
  (** first, at:, kernel/SortCollect.st:131-137, 150-156. *)
  Definition first (c : sc) : outcome (sc * option A) :=
    olet c := beConsistent c in
    if first_ c <=? last_ c then olet x := basicAt nil (store (base c)) (first_ c) in Ok (c, Some x)
    else Ok (c, None).
  Definition at_ (i : Z) (c : sc) : outcome (sc * option A) :=
    olet c := beConsistent c in
    let index := i + first_ c - 1 in
    if (first_ c <=? index) && (index <=? last_ c)
    then olet x := basicAt nil (store (base c)) index in Ok (c, Some x) else Ok (c, None).
  (** at:put:, the second definition, kernel/SortCollect.st:158-164, replaces the one of lines 93-96. *)
  Definition at_put (i : Z) (x : A) (c : sc) : outcome (sc * option unit) :=
    olet c := beConsistent c in
    let index := i + first_ c - 1 in
    if (first_ c <=? index) && (index <=? last_ c)
    then olet s := basicAtPut (store (base c)) index x in Ok (with_store c s, Some tt) else Ok (c, None).
  (** basicAt: with a bad index signals an error. *)
  Definition tryAt (c : sc) (i : Z) : sc * option A :=
    match basicAt nil (store (base c)) i with Ok x => (c, Some x) | _ => (c, None) end.
  (** last, kernel/SortCollect.st:139-148. *)
  Definition last (c : sc) : outcome (sc * option A) :=
    olet c := order c in Ok (tryAt c (if sorted c then last_ c else first_ c)).
  (** basicRemoveLast, kernel/OrderColl.st:423-438. *)
  Definition basicRemoveLast (c : sc) : outcome (sc * option A) :=
    if last_ c <? first_ c then Ok (c, None)
    else
      olet x := basicAt nil (store (base c)) (last_ c) in
      olet s := basicAtPut (store (base c)) (last_ c) nil in
      olet c := shrink_ (if last_ c =? first_ c then initIndices s
                         else SC (OC (first_ c) (last_ c - 1) s) (lastOrdered c) (sorted c)) in
      Ok (c, Some x).
  (** removeLast, kernel/SortCollect.st:175-185; basicSwap:with: signals an error when lastOrdered is 0. *)
  Definition removeLast (c : sc) : outcome (sc * option A) :=
    olet c := order c in
    if sorted c then basicRemoveLast c
    else if lastOrdered c <? 1 then Ok (c, None)
    else
      olet s := percolateDown (store (base c)) (first_ c) (lastOrdered c) in
      basicRemoveLast (SC (OC (first_ c) (last_ c) s) (lastOrdered c - 1) false).
  (** removeFirst, kernel/SortCollect.st:166-173, kernel/OrderColl.st:284-299. *)
  Definition removeFirst (c : sc) : outcome (sc * option A) :=
    olet c := beConsistent c in
    if last_ c <? first_ c then Ok (c, None)
    else
      olet x := basicAt nil (store (base c)) (first_ c) in
      olet s := basicAtPut (store (base c)) (first_ c) nil in
      olet c := shrink_ (if last_ c =? first_ c then initIndices s
                         else SC (OC (first_ c + 1) (last_ c) s) (lastOrdered c) (sorted c)) in
      Ok (c, Some x).
  (** removeAtIndex:, kernel/OrderColl.st:349-379 with kernel/SortCollect.st:321-337. *)
  Definition removeAtIndex (i : Z) (c : sc) : outcome (sc * option A) :=
    olet c := beConsistent c in
    if last_ c <? first_ c then Ok (c, None)
    else if (i <? 1) || (size (base c) <? i) then Ok (c, None)
    else
      olet x := basicAt nil (store (base c)) (i + first_ c - 1) in
      match replace_range (store (base c)) (i + first_ c - 1) (last_ c - 1) (store (base c)) (i + first_ c) with
      | None => Err
      | Some s =>
        olet s := basicAtPut s (last_ c) nil in
        let c := (if last_ c =? first_ c then initIndices s
                  else SC (OC (first_ c) (last_ c - 1) s) (lastOrdered c) (sorted c)) in
        olet c := shrink_ (SC (base c) (last_ c) (sorted c)) in
        Ok (c, Some x)
      end.
  (** do:, kernel/SortCollect.st:123-129: the elements visited. *)
  Definition do_all (c : sc) : outcome (sc * list A) :=
    olet c := beConsistent c in
    olet l := elements_of nil (base c) in Ok (c, l).
  (** size, kernel/OrderColl.st:110-115. *)
  Definition count (c : sc) : Z := size (base c).

  (** ** Searching *)
  Context (eqb : A -> A -> bool).
  (** compare:with:, kernel/SortCollect.st:508-529. *)
  Definition compare (a b : A) : comparison :=
    if Bool.eqb (R a b) (R b a) then Eq else if R a b then Lt else Gt.
  (** The first loop of doBinarySearch:low:high:, kernel/SortCollect.st:684-690. *)
  Fixpoint bsearch (fuel : nat) (s : list A) (x : A) (i j : Z) : outcome (option Z) :=
    if j <? i then Ok None
    else
      let mid := (i + j + 1) / 2 in
      olet y := basicAt nil s mid in
      match compare x y with
      | Eq => Ok (Some mid)
      | c => match fuel with
             | O => OutOfFuel
             | S n => if match c with Lt => true | _ => false end then bsearch n s x i (mid - 1) else bsearch n s x (mid + 1) j
             end
      end.
  (** The loops that look for an equal element among those that sort like it, upwards (kernel/SortCollect.st:703-711
      and 719-727) and downwards (lines 695-716): [n] rounds from [i]; Some None for ^nil. *)
  Fixpoint goUp (n : nat) (s : list A) (x : A) (i : Z) : outcome (option Z) :=
    match n with
    | O => Ok None
    | S n =>
      olet y := basicAt nil s i in
      match compare x y with
      | Eq => if eqb x y then Ok (Some i) else goUp n s x (i + 1)
      | _ => Ok None
      end
    end.
  Fixpoint goDown (n : nat) (s : list A) (x : A) (i : Z) : outcome (option Z) :=
    match n with
    | O => Ok None
    | S n =>
      olet y := basicAt nil s i in
      match compare x y with
      | Eq => if eqb x y then Ok (Some i) else goDown n s x (i - 1)
      | _ => Ok None
      end
    end.
  (** doBinarySearch:low:high:, kernel/SortCollect.st:672-732.  The sort block signals no error, so
      binarySearch:low:high: (lines 647-670) does the same. *)
  Definition binarySearch (s : list A) (x : A) (low high : Z) : outcome (option Z) :=
    olet m := bsearch (length s) s x low high in
    match m with
    | None => Ok None
    | Some mid =>
      olet d := goDown (Z.to_nat (mid - low + 1)) s x mid in
      match d with
      | Some i => Ok (Some i)
      | None => goUp (Z.to_nat (high - mid + 1)) s x mid
      end
    end.
  (** includes:, kernel/SortCollect.st:279-289. *)
  Definition includes (x : A) (c : sc) : outcome (sc * bool) :=
    olet c := beConsistent c in
    olet r := binarySearch (store (base c)) x (first_ c) (last_ c) in
    Ok (c, match r with Some _ => true | None => false end).
  (** The loop of indexOf:startingAt:ifAbsent:, kernel/SortCollect.st:273-276. *)
  Fixpoint indexBack (fuel : nat) (s : list A) (x : A) (index i j : Z) : outcome Z :=
    if j =? index then Ok j
    else
      olet y := basicAt nil s (i - 1) in
      if eqb y x then match fuel with O => OutOfFuel | S n => indexBack n s x index (i - 1) (j - 1) end
      else Ok j.
  (** indexOf:startingAt:ifAbsent:, kernel/SortCollect.st:252-277: Some (Some j) is an index, Some None the
      value of the block, None an error. *)
  Definition indexOf (x : A) (index : Z) (c : sc) : outcome (sc * option (option Z)) :=
    if (index <? 1) || (count c <? index) then
      Ok (c, if index =? count c + 1 then Some None else None)
    else
      olet c := beConsistent c in
      olet r := binarySearch (store (base c)) x (index + first_ c - 1) (last_ c) in
      match r with
      | None => Ok (c, Some None)
      | Some i =>
        olet j := indexBack (length (store (base c))) (store (base c)) x index i (i - first_ c + 1) in
        Ok (c, Some (Some j))
      end.
  (** occurrencesOf:, kernel/SortCollect.st:291-311; at: is relative to firstIndex, unlike the result of
      binarySearch:low:high:. *)
  Fixpoint lowerLoop (fuel : nat) (c : sc) (x : A) (lower : Z) : outcome Z :=
    if 1 <? lower then
      olet (c, y) := at_ lower c in
      match y with
      | None => Err
      | Some y => if eqb y x then match fuel with O => OutOfFuel | S n => lowerLoop n c x (lower - 1) end else Ok lower
      end
    else Ok lower.
  Fixpoint upperLoop (fuel : nat) (c : sc) (x : A) (max upper : Z) : outcome Z :=
    if upper <? max then
      olet (c, y) := at_ upper c in
      match y with
      | None => Err
      | Some y => if eqb y x then match fuel with O => OutOfFuel | S n => upperLoop n c x max (upper + 1) end else Ok upper
      end
    else Ok upper.
  Definition occurrencesOf (x : A) (c : sc) : outcome (sc * Z) :=
    olet c := beConsistent c in
    olet r := binarySearch (store (base c)) x (first_ c) (last_ c) in
    match r with
    | None => Ok (c, 0)
    | Some upper =>
      olet lower := lowerLoop (length (store (base c))) c x (upper - 1) in
      olet upper := upperLoop (length (store (base c))) c x (count c) upper in
      Ok (c, upper - lower - 1)
    end.
End SC.
Arguments SC {A}.
Arguments base {A}.
Arguments lastOrdered {A}.
Arguments sorted {A}.

(** ** Histories *)
(** The messages of a history. *)
Inductive smsg (A : Type) : Type :=
| MAdd (x : A) | MAddAll (l : list A) | MFirst | MLast | MAt (i : Z) | MRemoveFirst | MRemoveLast
| MRemoveAt (i : Z) | MDo | MSize.
Arguments MAdd {A}. Arguments MAddAll {A}. Arguments MFirst {A}. Arguments MLast {A}. Arguments MAt {A}.
Arguments MRemoveFirst {A}. Arguments MRemoveLast {A}. Arguments MRemoveAt {A}. Arguments MDo {A}.
Arguments MSize {A}.
(** What is observed: an element or an error, a list of elements, a number. *)
Inductive sobs (A : Type) : Type := OElt (x : option A) | OList (l : list A) | ONum (n : Z).
Arguments OElt {A}. Arguments OList {A}. Arguments ONum {A}.

Section Hist.
  Context {A : Type} (nil : A) (R : A -> A -> bool) (one_by_one : Z -> Z -> bool).
  Definition elt (r : outcome (@sc A * option A)) : outcome (@sc A * sobs A) := olet (c, x) := r in Ok (c, OElt x).
  Definition ssend (m : smsg A) (c : @sc A) : outcome (@sc A * sobs A) :=
    match m with
    | MAdd x => olet c := add nil x c in Ok (c, OElt (Some x))
    | MAddAll l => olet c := addAll nil l c in Ok (c, OList l)
    | MFirst => elt (first nil R one_by_one c)
    | MLast => elt (last nil R one_by_one c)
    | MAt i => elt (at_ nil R one_by_one i c)
    | MRemoveFirst => elt (removeFirst nil R one_by_one c)
    | MRemoveLast => elt (removeLast nil R one_by_one c)
    | MRemoveAt i => elt (removeAtIndex nil R one_by_one i c)
    | MDo => olet (c, l) := do_all nil R one_by_one c in Ok (c, OList l)
    | MSize => Ok (c, ONum (count c))
    end.
  Fixpoint shist (ms : list (smsg A)) (c : @sc A) : outcome (list (sobs A)) :=
    match ms with
    | [] => Ok []
    | m :: ms => olet (c, o) := ssend m c in olet os := shist ms c in Ok (o :: os)
    end.
  (** The collection after a history. *)
  Fixpoint sfinal (ms : list (smsg A)) (c : @sc A) : outcome (@sc A) :=
    match ms with
    | [] => Ok c
    | m :: ms => olet (c, _) := ssend m c in sfinal ms c
    end.
End Hist.
