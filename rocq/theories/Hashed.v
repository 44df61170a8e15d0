(** Open-addressing hashed collections: kernel/HashedColl.st, kernel/Set.st,
    kernel/IdentitySet.st, kernel/Dictionary.st, kernel/LookupTable.st and
    kernel/IdentDict.st.  Slots are numbered from 0 instead of 1. *)
From Verif Require Import Base.

(** scramble, libgst/dict.inl:605-616 on a 64-bit machine, reached from SmallInteger>>scramble
    (libgst/prims.def:350-363). *)
Definition scramble (h : Z) : Z :=
  let x := uwrap64 h in
  let x := Z.lxor x (Z.lor (Z.shiftr x 31) (uwrap64 (Z.shiftl x 33))) in
  let x := Z.lxor x (Z.lor (uwrap64 (Z.shiftl x 10)) (Z.shiftr x 22)) in
  let x := Z.lxor x (Z.lor (uwrap64 (Z.shiftl x 6)) (Z.shiftr x 26)) in
  let x := Z.lxor x (Z.lor (uwrap64 (Z.shiftl x 16)) (Z.shiftr x 16)) in
  Z.land x (2 ^ 62 - 1).

(** index := (anObject hash scramble bitAnd: size - 1) + 1, kernel/HashedColl.st:337. *)
Definition home (h : Z) (n : nat) : nat := Z.to_nat (Z.land (scramble h) (Z.of_nat n - 1)).
(** index == size ifTrue: [index := 1] ifFalse: [index := index + 1],
    kernel/HashedColl.st:341. *)
Definition next (n i : nat) : nat := if Nat.eqb (S i) n then O else S i.
(** primAt:put:, kernel/HashedColl.st:406-414, for an index within bounds. *)
Fixpoint replace {A} (i : nat) (x : A) (l : list A) : list A :=
  match l, i with
  | [], _ => []
  | _ :: l, O => x :: l
  | y :: l, S i => y :: replace i x l
  end.

(** HashedCollection class>>new:, kernel/HashedColl.st:54-63: number of slots. *)
Definition table_size (n : Z) : nat :=
  let r := Z.max 8 ((n * 4 + 2) / 3) in
  Z.to_nat (if Z.land r (r - 1) =? 0 then r else Z.shiftl 1 (Z.log2 r + 1)).
(** HashedCollection>>capacity, kernel/HashedColl.st:157-162. *)
Definition capacity (n : nat) : Z := Z.of_nat n * 3 / 4.

Section Table.
  (** The elements, their keys (the element itself in a Set, the key of an Association in a
      Dictionary), the comparison of keys (= or ==), and the hash values used by
      findIndex: and by findElementIndex:. *)
  Context {E K : Type} (key : E -> K) (keq : K -> K -> bool) (hf he : K -> Z).

  (** Set>>findIndex: (kernel/Set.st:119-133), Dictionary>>findIndex: (kernel/Dictionary.st:579-593),
      LookupTable>>findIndex: (kernel/LookupTable.st:336-350). Visiting every slot without an
      answer means that the loop never ends: OutOfFuel. *)
  Fixpoint find_index (fuel : nat) (t : list (option E)) (k : K) (i : nat) : outcome nat :=
    match fuel with
    | O => OutOfFuel
    | S fuel =>
      match nth_error t i with
      | None => Err
      | Some None => Ok i
      | Some (Some e) => if keq (key e) k then Ok i else find_index fuel t k (next (length t) i)
      end
    end.
  Definition find (t : list (option E)) (k : K) : outcome nat :=
    find_index (length t) t k (home (hf k) (length t)).

  (** HashedCollection>>findElementIndex:, kernel/HashedColl.st:329-343;
      Dictionary>>findElementIndex:, kernel/Dictionary.st:563-577. *)
  Fixpoint find_nil (fuel : nat) (t : list (option E)) (i : nat) : outcome nat :=
    match fuel with
    | O => OutOfFuel
    | S fuel =>
      match nth_error t i with
      | None => Err
      | Some None => Ok i
      | Some (Some _) => find_nil fuel t (next (length t) i)
      end
    end.
  Definition find_element (t : list (option E)) (k : K) : outcome nat :=
    find_nil (length t) t (home (he k) (length t)).

  (** rehashObjectsAfter:, kernel/HashedColl.st:302-320. *)
  Fixpoint rehash_after (fuel : nat) (t : list (option E)) (i : nat) : outcome (list (option E)) :=
    match fuel with
    | O => OutOfFuel
    | S fuel =>
      let i := next (length t) i in
      match nth_error t i with
      | None => Err
      | Some None => Ok t
      | Some (Some e) =>
        let t := replace i None t in
        olet j := find_element t (key e) in
        rehash_after fuel (replace j (Some e) t) i
      end
    end.

  (** The instance variable tally and the indexed instance variables. *)
  Record coll : Type := Coll { slots : list (option E); tally : Z }.

  (** HashedCollection class>>new:, kernel/HashedColl.st:54-63. *)
  Definition new (n : Z) : coll := Coll (repeat None (table_size n)) 0.

  (** addWhileGrowing:, kernel/HashedColl.st:274-282. *)
  Definition add_while_growing (e : E) (c : coll) : outcome coll :=
    olet i := find_element (slots c) (key e) in
    Ok (Coll (replace i (Some e) (slots c)) (tally c + 1)).
  (** copyAllFrom:, kernel/HashedColl.st:291-300; the copies of Associations made by
      kernel/Dictionary.st:517-527 have the same key and value. *)
  Fixpoint copy_all_from (src : list (option E)) (c : coll) : outcome coll :=
    match src with
    | [] => Ok c
    | None :: src => copy_all_from src c
    | Some e :: src => olet c := add_while_growing e c in copy_all_from src c
    end.
  (** growBy:, kernel/HashedColl.st:369-378. *)
  Definition grow_by (delta : Z) (c : coll) : outcome coll :=
    copy_all_from (slots c) (new (capacity (length (slots c)) + delta)).
  (** incrementTally, kernel/HashedColl.st:255-264. *)
  Definition increment_tally (c : coll) : outcome (coll * bool) :=
    let n := length (slots c) in
    let grown := Z.of_nat n * 3 / 4 <=? tally c in
    olet c := (if grown then grow_by (capacity n) c else Ok c) in
    Ok (Coll (slots c) (tally c + 1), grown).

  (** HashedCollection>>add:, kernel/HashedColl.st:84-96, where [upd] is the identity;
      Dictionary>>at:put:, kernel/Dictionary.st:105-117, where [upd] changes the value of the
      Association found. *)
  Definition put (upd : E -> E) (e : E) (c : coll) : outcome coll :=
    olet i := find (slots c) (key e) in
    match nth i (slots c) None with
    | None =>
      olet (c, grown) := increment_tally c in
      olet i := (if grown then find (slots c) (key e) else Ok i) in
      Ok (Coll (replace i (Some e) (slots c)) (tally c))
    | Some e0 => Ok (Coll (replace i (Some (upd e0)) (slots c)) (tally c))
    end.
  (** findIndexOrNil:, kernel/HashedColl.st:353-362, used by includes: (133-138), at:ifAbsent:
      (kernel/Dictionary.st:137-144) and includesKey: (kernel/Dictionary.st:229-233). *)
  Definition get (k : K) (c : coll) : outcome (option E) :=
    olet i := find (slots c) k in Ok (nth i (slots c) None).
  (** remove:ifAbsent:, kernel/HashedColl.st:98-110; removeKey:ifAbsent:,
      kernel/Dictionary.st:323-337: the element removed, if any. *)
  Definition remove (k : K) (c : coll) : outcome (coll * option E) :=
    olet i := find (slots c) k in
    match nth i (slots c) None with
    | None => Ok (c, None)
    | Some e =>
      let t := replace i None (slots c) in
      olet t := rehash_after (length t) t i in
      Ok (Coll t (tally c - 1), Some e)
    end.
  (** do:, kernel/HashedColl.st:195-201: the elements visited. *)
  Definition elements (t : list (option E)) : list E :=
    flat_map (fun s => match s with Some e => [e] | None => [] end) t.
  (** rehash, kernel/HashedColl.st:223-239. *)
  Definition rehash (c : coll) : outcome coll :=
    copy_all_from (slots c) (Coll (repeat None (length (slots c))) 0).
  (** shallowCopy, kernel/HashedColl.st:112-120. *)
  Definition shallow_copy (c : coll) : outcome coll :=
    copy_all_from (slots c) (new (capacity (length (slots c)))).
End Table.
Arguments Coll {E}.
Arguments slots {E}.
Arguments tally {E}.

Section Lookup.
  (** LookupTable keeps keys and values in alternate indexed variables,
      kernel/LookupTable.st:288-311; [vnil] is the value nil. *)
  Context {K V : Type} (keq : K -> K -> bool) (hf he : K -> Z) (vnil : V).

  Record ltab : Type := LTab { lkeys : list (option K); lvals : list V; ltally : Z }.

  (** LookupTable class>>primNew:, kernel/LookupTable.st:45-48. *)
  Definition lt_new (n : Z) : ltab := LTab (repeat None (table_size n)) (repeat vnil (table_size n)) 0.

  Definition lt_find (ks : list (option K)) (k : K) : outcome nat := find (fun k => k) keq hf ks k.
  (** LookupTable>>findElementIndex:, kernel/LookupTable.st:320-334. *)
  Definition lt_find_element (ks : list (option K)) (k : K) : outcome nat := find_element he ks k.

  (** whileGrowingAt:put:, kernel/LookupTable.st:276-286. *)
  Definition while_growing_at_put (k : K) (v : V) (c : ltab) : outcome ltab :=
    olet i := lt_find_element (lkeys c) k in
    Ok (LTab (replace i (Some k) (lkeys c)) (replace i v (lvals c)) (ltally c + 1)).
  (** copyAllFrom:, kernel/LookupTable.st:259-269. *)
  Fixpoint lt_copy_all_from (ks : list (option K)) (vs : list V) (c : ltab) : outcome ltab :=
    match ks, vs with
    | Some k :: ks, v :: vs => olet c := while_growing_at_put k v c in lt_copy_all_from ks vs c
    | None :: ks, _ :: vs => lt_copy_all_from ks vs c
    | _, _ => Ok c
    end.
  (** growBy: and incrementTally, kernel/HashedColl.st:255-264, 369-378. *)
  Definition lt_increment_tally (c : ltab) : outcome (ltab * bool) :=
    let n := length (lkeys c) in
    let grown := Z.of_nat n * 3 / 4 <=? ltally c in
    olet c := (if grown then lt_copy_all_from (lkeys c) (lvals c) (lt_new (capacity n + capacity n)) else Ok c) in
    Ok (LTab (lkeys c) (lvals c) (ltally c + 1), grown).
  (** LookupTable>>at:put:, kernel/LookupTable.st:65-77. *)
  Definition lt_at_put (k : K) (v : V) (c : ltab) : outcome ltab :=
    olet i := lt_find (lkeys c) k in
    match nth i (lkeys c) None with
    | None =>
      olet (c, grown) := lt_increment_tally c in
      olet i := (if grown then lt_find (lkeys c) k else Ok i) in
      Ok (LTab (replace i (Some k) (lkeys c)) (replace i v (lvals c)) (ltally c))
    | Some _ => Ok (LTab (lkeys c) (replace i v (lvals c)) (ltally c))
    end.
  (** LookupTable>>at:ifAbsent:, kernel/LookupTable.st:79-87. *)
  Definition lt_at (k : K) (c : ltab) : outcome (option V) :=
    olet i := lt_find (lkeys c) k in
    Ok (match nth i (lkeys c) None with None => None | Some _ => Some (nth i (lvals c) vnil) end).
  (** LookupTable>>rehashObjectsAfter:, kernel/LookupTable.st:237-257. *)
  Fixpoint lt_rehash_after (fuel : nat) (ks : list (option K)) (vs : list V) (i : nat)
    : outcome (list (option K) * list V) :=
    match fuel with
    | O => OutOfFuel
    | S fuel =>
      let i := next (length ks) i in
      match nth_error ks i with
      | None => Err
      | Some None => Ok (ks, vs)
      | Some (Some k) =>
        let ks := replace i None ks in
        olet j := lt_find_element ks k in
        let ks := replace j (Some k) ks in
        let vs := if Nat.eqb j i then vs else replace i vnil (replace j (nth i vs vnil) vs) in
        lt_rehash_after fuel ks vs i
      end
    end.
  (** LookupTable>>removeKey:ifAbsent:, kernel/LookupTable.st:128-142. *)
  Definition lt_remove_key (k : K) (c : ltab) : outcome (ltab * option V) :=
    olet i := lt_find (lkeys c) k in
    match nth i (lkeys c) None with
    | None => Ok (c, None)
    | Some _ =>
      let value := nth i (lvals c) vnil in
      let ks := replace i None (lkeys c) in
      let vs := replace i vnil (lvals c) in
      olet (ks, vs) := lt_rehash_after (length ks) ks vs i in
      Ok (LTab ks vs (ltally c - 1), Some value)
    end.
  (** keysAndValuesDo:, kernel/LookupTable.st:168-178: the pairs visited. *)
  Definition lt_pairs (c : ltab) : list (K * V) :=
    flat_map (fun p => match fst p with Some k => [(k, snd p)] | None => [] end) (combine (lkeys c) (lvals c)).
  (** LookupTable>>rehash, kernel/LookupTable.st:180-200. *)
  Definition lt_rehash (c : ltab) : outcome ltab :=
    let n := length (lkeys c) in
    lt_copy_all_from (lkeys c) (lvals c) (LTab (repeat None n) (repeat vnil n) 0).
End Lookup.
Arguments LTab {K V}.
Arguments lkeys {K V}.
Arguments lvals {K V}.
Arguments ltally {K V}.

Section Sets.
  Context {E : Type} (eq : E -> E -> bool) (hf he : E -> Z).
  Notation self := (fun e : E => e).

  (** HashedCollection>>add:, kernel/HashedColl.st:84-96. *)
  Definition set_add (e : E) (c : coll) : outcome coll := put self eq hf he self e c.
  (** includes:, kernel/HashedColl.st:133-138. *)
  Definition set_includes (e : E) (c : coll) : outcome bool :=
    olet r := get self eq hf e c in Ok (match r with Some _ => true | None => false end).
  (** addAll: (Iterable/Collection: aCollection do: [:c | self add: c]). *)
  Fixpoint set_add_all (l : list E) (c : coll) : outcome coll :=
    match l with [] => Ok c | e :: l => olet c := set_add e c in set_add_all l c end.
  (** do: [:elem | (other includes: elem) == wanted ifTrue: [result add: elem]],
      kernel/Set.st:42-56, 68-77. *)
  Fixpoint add_if (wanted : bool) (other : coll) (l : list E) (result : coll) : outcome coll :=
    match l with
    | [] => Ok result
    | e :: l =>
      olet b := set_includes e other in
      olet result := (if Bool.eqb b wanted then set_add e result else Ok result) in
      add_if wanted other l result
    end.
  (** Set>>&, kernel/Set.st:42-56. *)
  Definition set_inter (a b : coll) : outcome coll :=
    if tally a <? tally b then add_if true b (elements (slots a)) (new (tally a))
    else add_if true a (elements (slots b)) (new (tally a)).
  (** Set>>+, kernel/Set.st:58-66. *)
  Definition set_union (a b : coll) : outcome coll :=
    olet u := shallow_copy self he a in set_add_all (elements (slots b)) u.
  (** Set>>-, kernel/Set.st:68-77. *)
  Definition set_diff (a b : coll) : outcome coll := add_if false b (elements (slots a)) (new (tally a)).
  (** do: [:elem | (aSet includes: elem) ifFalse: [^false]]. ^true *)
  Fixpoint all_in (l : list E) (b : coll) : outcome bool :=
    match l with
    | [] => Ok true
    | e :: l => olet r := set_includes e b in if r then all_in l b else Ok false
    end.
  (** Set>><, <= (kernel/Set.st:79-97) and HashedCollection>>= between two sets of one class
      (kernel/HashedColl.st:183-193). *)
  Definition set_lt (a b : coll) : outcome bool := if tally a <? tally b then all_in (elements (slots a)) b else Ok false.
  Definition set_le (a b : coll) : outcome bool := if tally a <=? tally b then all_in (elements (slots a)) b else Ok false.
  Definition set_eq (a b : coll) : outcome bool := if tally a =? tally b then all_in (elements (slots a)) b else Ok false.
  (** HashedCollection>>hash, kernel/HashedColl.st:171-181. *)
  Definition set_hash (c : coll) : Z :=
    fold_left (fun hv e => Z.lxor hv (scramble (hf e))) (elements (slots c)) (tally c).
End Sets.
