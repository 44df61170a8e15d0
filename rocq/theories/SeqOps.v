(** Copying, searching and replacing in sequences: kernel/SeqCollect.st and kernel/ArrayColl.st. A collection
    is the list of its elements; [eqb] is what the elements answer to #=. *)
From Verif Require Import Base Replace.

Section SeqOps.
  Context {A : Type}.
  Variable eqb : A -> A -> bool.
  (** What the elements of a new collection are: nil, 0 or the character 0. *)
  Variable nil : A.

  (** Number of elements (#size). *)
  Definition size (l : list A) : Z := Z.of_nat (length l).
  (** at: with its check of the bounds (kernel/Object.st:checkIndex:from:, raised as IndexOutOfRange). *)
  Definition at_ (l : list A) (i : Z) : outcome A :=
    if (1 <=? i) && (i <=? size l)
    then match nth_error l (Z.to_nat (i - 1)) with Some x => Ok x | None => UB end
    else Err.
  (** at:put: on a list of elements (kernel/Object.st:checkIndex:from:): None if the index is out of range. *)
  Definition at_put (l : list A) (i : Z) (x : A) : option (list A) :=
    if (1 <=? i) && (i <=? size l)
    then Some (firstn (Z.to_nat (i - 1)) l ++ x :: skipn (Z.to_nat i) l)
    else None.
  (** species new: n, elements still unset (kernel/Collection.st:524-529); a negative size fails. *)
  Definition copy_empty (n : Z) : outcome (list A) := if n <? 0 then Err else Ok (repeat nil (Z.to_nat n)).

  (** ** replaceFrom:to:with:startingAt: *)
  (** The source is another collection, or the receiver itself. *)
  Inductive source := Other (l : list A) | Self.
  (** The elements of the source while the receiver is [l]. *)
  Definition elements (src : source) (l : list A) : list A := match src with Other m => m | Self => l end.
  (** [n] rounds of the loop that copies, from index [i] by [step] (kernel/SeqCollect.st:551-557). Answers the
      receiver after the last store, and whether no index was out of range. *)
  Fixpoint copy_loop (l : list A) (src : source) (delta i step : Z) (n : nat) : list A * bool :=
    match n with
    | O => (l, true)
    | S n =>
        match at_ (elements src l) (i - delta) with
        | Ok x =>
            match at_put l i x with
            | Some l => copy_loop l src delta (i + step) step n
            | None => (l, false)
            end
        | _ => (l, false)
        end
    end.
  (** kernel/SeqCollect.st:536-558. *)
  Definition replace_seq (l : list A) (start stop : Z) (src : source) (from : Z) : list A * bool :=
    let min_stop := start - 1 in
    let max_stop := Z.min (size l) (min_stop + size (elements src l)) in
    if (min_stop <=? stop) && (stop <=? max_stop) then
      let n := Z.to_nat (stop - start + 1) in
      if start <? from then copy_loop l src (start - from) start 1 n
      else copy_loop l src (start - from) stop (-1) n
    else (l, false).
  (** The method of Array, String and ByteArray: the primitive (here with exact integers, see Replace.v), and
      the inherited method if that fails, as it does for a source of another shape, when [prim] is false
      (kernel/Array.st:79-91, kernel/String.st:285-297, kernel/ByteArray.st:606-619). *)
  Definition replace_from (prim : bool) (l : list A) (start stop : Z) (src : source) (from : Z) : list A * bool :=
    match (if prim then replace_range l start stop (elements src l) from else None) with
    | Some l => (l, true)
    | None => replace_seq l start stop src from
    end.
  (** The same as a step of a method that builds a new collection, which is lost if the step fails. *)
  Definition replacing (prim : bool) (l : list A) (start stop : Z) (src : list A) (from : Z) : outcome (list A) :=
    let (l, ok) := replace_from prim l start stop (Other src) from in if ok then Ok l else Err.
  (** replaceFrom:to:with: (kernel/SeqCollect.st:560-574), for a sequenceable source. *)
  Definition replacing_all (prim : bool) (l : list A) (start stop : Z) (src : list A) : outcome (list A) :=
    if stop - (start - 1) =? size src then replacing prim l start stop src 1 else Err.
  (** The loop of replaceFrom:to:withObject: (kernel/SeqCollect.st:586). *)
  Fixpoint fill_loop (l : list A) (i : Z) (x : A) (n : nat) : outcome (list A) :=
    match n with
    | O => Ok l
    | S n => match at_put l i x with Some l => fill_loop l (i + 1) x n | None => Err end
    end.
  (** replaceFrom:to:withObject: (kernel/SeqCollect.st:576-587). *)
  Definition filling (l : list A) (start stop : Z) (x : A) : outcome (list A) :=
    if stop - start <? -1 then Err else fill_loop l start x (Z.to_nat (stop - start + 1)).

  (** The loop of atAllPut: that copies what is there behind itself (kernel/SeqCollect.st:219-225). *)
  Fixpoint doubling (prim : bool) (fuel : nat) (l : list A) (to : Z) : outcome (list A) :=
    match fuel with
    | O => OutOfFuel
    | S fuel =>
        if to <? size l then
          let (l, ok) := replace_from prim l (to + 1) (Z.min (to + to) (size l)) Self 1 in
          if ok then doubling prim fuel l (to + to) else Err
        else Ok l
    end.
  (** at: 1 put: x up to at: n put: x (kernel/SeqCollect.st:211-216). *)
  Definition put_first (l : list A) (x : A) (n : nat) : outcome (list A) := fill_loop l 1 x n.
  (** atAllPut: (kernel/SeqCollect.st:203-226). *)
  Definition at_all_put (prim : bool) (l : list A) (x : A) : outcome (list A) :=
    if size l <=? 4 then put_first l x (length l)
    else olet l := put_first l x 4 in doubling prim (S (length l)) l 4.

  (** ** Searching *)
  (** matchSubCollection:startingAt: (kernel/SeqCollect.st:1076-1089), from index [i] of the other collection
      on, for [n] more of its elements; [our] is the index in the receiver of the last one compared. *)
  Fixpoint match_sub (l sub : list A) (our i : Z) (n : nat) : outcome bool :=
    match n with
    | O => Ok true
    | S n =>
        olet a := at_ l (our + 1) in
        olet b := at_ sub i in
        if eqb a b then match_sub l sub (our + 1) (i + 1) n else Ok false
    end.
  (** The loop of indexOfSubCollection:startingAt:ifAbsent: over [n] indices (kernel/SeqCollect.st:358-365). *)
  Fixpoint scan_sub (l sub : list A) (i : Z) (n : nat) : outcome (option Z) :=
    match n with
    | O => Ok None
    | S n =>
        olet a := at_ l i in
        olet b := at_ sub 1 in
        olet m := if eqb a b then match_sub l sub i 2 (length sub - 1) else Ok false in
        if m : bool then Ok (Some i) else scan_sub l sub (i + 1) n
    end.
  (** indexOfSubCollection:startingAt:ifAbsent: (kernel/SeqCollect.st:347-367); None is when the block is
      evaluated. *)
  Definition index_of_sub (l sub : list A) (i : Z) : outcome (option Z) :=
    if size sub =? 0 then Ok (Some i)
    else if i + size sub - 1 <=? size l
    then scan_sub l sub i (Z.to_nat (size l - size sub + 1 - i + 1))
    else Ok None.
  (** countSubCollectionOccurrencesOf: (kernel/SeqCollect.st:1091-1104). indexOfSubCollection:startingAt:
      answers 0 for absence (lines 369-378), which is what ends the loop. *)
  Fixpoint count_sub (fuel : nat) (l sub : list A) (i count : Z) : outcome Z :=
    match fuel with
    | O => OutOfFuel
    | S fuel =>
        olet k := index_of_sub l sub i in
        let k := match k with Some k => k | None => 0 end in
        if 0 <? k then count_sub fuel l sub (k + size sub) (count + 1) else Ok count
    end.

  (** ** Copies with changes, of arrays *)
  (** The loop of copyReplaceAll:with: (kernel/ArrayColl.st:371-397). *)
  Fixpoint replace_all_loop (prim : bool) (fuel : nat) (l old new acc : list A) (old_start new_start : Z) : outcome (list A) :=
    match fuel with
    | O => OutOfFuel
    | S fuel =>
        olet k := index_of_sub l old old_start in
        match k with
        | None => replacing prim acc new_start (size acc) l old_start
        | Some k =>
            let n := k - old_start in
            olet acc := replacing prim acc new_start (new_start + n - 1) l old_start in
            let new_start := new_start + n in
            olet acc := replacing prim acc new_start (new_start + size new - 1) new 1 in
            replace_all_loop prim fuel l old new acc (old_start + n + size old) (new_start + size new)
        end
    end.
  (** copyReplaceAll:with: of an array (kernel/ArrayColl.st:358-398). *)
  Definition copy_replace_all (prim : bool) (fuel : nat) (l old new : list A) : outcome (list A) :=
    olet num := count_sub fuel l old 1 0 in
    olet acc := copy_empty (size l + (size new - size old) * num) in
    replace_all_loop prim fuel l old new acc 1 1.
  (** copyReplaceFrom:to:with: of an array (kernel/ArrayColl.st:400-427). *)
  Definition copy_replace (prim : bool) (l : list A) (start stop : Z) (rep : list A) : outcome (list A) :=
    if stop - start <? -1 then Err
    else
      let new_size := size l + size rep - (stop - start + 1) in
      olet r := copy_empty new_size in
      olet r := replacing prim r 1 (start - 1) l 1 in
      olet r := replacing_all prim r start (start + size rep - 1) rep in
      replacing prim r (start + size rep) new_size l (stop + 1).
  (** copyReplaceFrom:to:withObject: of an array (kernel/ArrayColl.st:330-356). *)
  Definition copy_replace_object (prim : bool) (l : list A) (start stop : Z) (x : A) : outcome (list A) :=
    if stop - start <? -1 then Err
    else
      let end_ := if start <=? stop then stop else start in
      let new_size := end_ + (size l - stop) in
      olet r := copy_empty new_size in
      olet r := replacing prim r 1 (start - 1) l 1 in
      olet r := filling r start end_ x in
      replacing prim r (end_ + 1) new_size l (stop + 1).
  (** copyFrom:to: of an array (kernel/ArrayColl.st:218-238). *)
  Definition copy_from_to (prim : bool) (l : list A) (start stop : Z) : outcome (list A) :=
    if stop <? start then (if stop =? start - 1 then copy_empty 0 else Err)
    else
      let n := stop - start + 1 in
      olet r := copy_empty n in replacing prim r 1 n l start.
  (** The comma of arrays (kernel/ArrayColl.st:188-203, kernel/String.st:83-102). *)
  Definition comma (prim : bool) (l m : list A) : outcome (list A) :=
    olet r := copy_empty (size l + size m) in
    olet r := replacing prim r 1 (size l) l 1 in
    replacing prim r (size l + 1) (size l + size m) m 1.

  (** ** The same of collections that grow (OrderedCollection) *)
  (** The elements from index [i] on that from:to:do: meets in [n] rounds (kernel/SeqCollect.st:from:to:do:). *)
  Fixpoint from_do (l : list A) (i : Z) (n : nat) : outcome (list A) :=
    match n with
    | O => Ok []
    | S n => olet x := at_ l i in olet r := from_do l (i + 1) n in Ok (x :: r)
    end.
  (** from:to:do: with a block that adds to a collection. *)
  Definition from_to_do (l : list A) (start stop : Z) : outcome (list A) := from_do l start (Z.to_nat (stop - start + 1)).
  (** The loop of copyReplaceAll:with: (kernel/SeqCollect.st:717-735). *)
  Fixpoint seq_replace_all_loop (fuel : nat) (l old new acc : list A) (old_start : Z) : outcome (list A) :=
    match fuel with
    | O => OutOfFuel
    | S fuel =>
        olet k := index_of_sub l old old_start in
        match k with
        | None => olet r := from_to_do l old_start (size l) in Ok (acc ++ r)
        | Some k =>
            let n := k - old_start in
            olet r := from_to_do l old_start (old_start + n - 1) in
            seq_replace_all_loop fuel l old new (acc ++ r ++ new) (old_start + n + size old)
        end
    end.
  (** copyReplaceAll:with: (kernel/SeqCollect.st:705-737). *)
  Definition seq_copy_replace_all (fuel : nat) (l old new : list A) : outcome (list A) :=
    olet num := count_sub fuel l old 1 0 in
    olet _ := copy_empty (size l + (size new - size old) * num) in
    seq_replace_all_loop fuel l old new [] 1.
  (** copyReplaceFrom:to:with: (kernel/SeqCollect.st:739-776). *)
  Definition seq_copy_replace (l : list A) (start stop : Z) (rep : list A) : outcome (list A) :=
    if stop - start <? -1 then Err
    else
      olet _ := copy_empty (size l + size rep - (stop - start + 1)) in
      olet a := if 1 <? start then from_to_do l 1 (start - 1) else Ok [] in
      olet b := if stop <? size l then from_to_do l (stop + 1) (size l) else Ok [] in
      Ok (a ++ rep ++ b).
  (** copyFrom:to: (kernel/SeqCollect.st:683-703). *)
  Definition seq_copy_from_to (l : list A) (start stop : Z) : outcome (list A) :=
    if stop <? start then (if stop =? start - 1 then Ok [] else Err)
    else from_to_do l start stop.

  (** ** Joining *)
  (** The rounds of do:separatedBy: in join:separatedBy: after the first (kernel/ArrayColl.st:171-181). *)
  Fixpoint join_loop (prim : bool) (acc sep : list A) (start : Z) (ls : list (list A)) : outcome (list A) :=
    match ls with
    | [] => Ok acc
    | l :: ls =>
        olet acc := replacing_all prim acc start (start + size sep - 1) sep in
        let start := start + size sep in
        olet acc := replacing_all prim acc start (start + size l - 1) l in
        join_loop prim acc sep (start + size l) ls
    end.
  (** join:separatedBy: of an array class (kernel/ArrayColl.st:157-183). *)
  Definition join (prim : bool) (ls : list (list A)) (sep : list A) : outcome (list A) :=
    match ls with
    | [] => copy_empty 0
    | l :: r =>
        olet acc := copy_empty (fold_left (fun n l => n + size l) ls (size sep * (Z.of_nat (length ls) - 1))) in
        olet acc := replacing_all prim acc 1 (size l) l in
        join_loop prim acc sep (1 + size l) r
    end.
End SeqOps.
