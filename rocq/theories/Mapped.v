(** MappedCollections, kernel/MappedColl.st.  The domain is an Array; the map is an Array of indices
    or a Dictionary whose values are indices (a list of associations in the order in which the
    Dictionary enumerates them).  Keys and objects are integers that stand for objects; the blocks
    are functions.  An error (an index or a key that is not there) is [Err]. *)
From Verif Require Import Base.
Import ListNotations.
Local Open Scope Z_scope.

(** The map, kernel/MappedColl.st:41-46. *)
Inductive mapping := MSeq (l : list Z) | MDict (l : list (Z * Z)).
(** kernel/MappedColl.st:36. *)
Record mapped := Mp { domain : list Z; mapof : mapping }.

(** at: of an Array. *)
Definition seq_at (d : list Z) (i : Z) : outcome Z :=
  if (1 <=? i) then match nth_error d (Z.to_nat (i - 1)) with Some v => Ok v | None => Err end else Err.
(** at: of a Dictionary. *)
Fixpoint dict_at (l : list (Z * Z)) (k : Z) : outcome Z :=
  match l with [] => Err | (k', v) :: r => if k' =? k then Ok v else dict_at r k end.
(** at: of the map. *)
Definition map_at (m : mapping) (k : Z) : outcome Z :=
  match m with MSeq l => seq_at l k | MDict l => dict_at l k end.
(** What do: of the map gives: the elements, or the VALUES, kernel/Dictionary.st:353-358. *)
Definition map_do (m : mapping) : list Z := match m with MSeq l => l | MDict l => map snd l end.
(** keys of the map, kernel/SeqCollect.st:873-878 and kernel/Dictionary.st:208-216. *)
Definition map_keys (m : mapping) : list Z :=
  match m with MSeq l => map Z.of_nat (List.seq 1 (length l)) | MDict l => map fst l end.
(** A block that may fail, for each of a list. *)
Fixpoint each {A B} (f : A -> outcome B) (l : list A) : outcome (list B) :=
  match l with [] => Ok [] | x :: r => olet y := f x in olet ys := each f r in Ok (y :: ys) end.
(** A test that may fail, for each of a list; those that pass. *)
Fixpoint keep {A} (f : A -> outcome bool) (l : list A) : outcome (list A) :=
  match l with [] => Ok [] | x :: r => olet b := f x in olet ys := keep f r in Ok (if b then x :: ys else ys) end.

(** at:, kernel/MappedColl.st:74-79. *)
Definition at_ (c : mapped) (k : Z) : outcome Z := olet i := map_at (mapof c) k in seq_at (domain c) i.
(** at:put: of an Array. *)
Fixpoint seq_put (d : list Z) (n : nat) (v : Z) : list Z :=
  match d, n with [] , _ => [] | _ :: r, O => v :: r | x :: r, S n' => x :: seq_put r n' v end.
(** at:put:, kernel/MappedColl.st:91-96. *)
Definition at_put (c : mapped) (k v : Z) : outcome mapped :=
  olet i := map_at (mapof c) k in
  olet _ := seq_at (domain c) i in
  Ok (Mp (seq_put (domain c) (Z.to_nat (i - 1)) v) (mapof c)).
(** size, kernel/MappedColl.st:112-117. *)
Definition size (c : mapped) : Z := Z.of_nat (length (map_do (mapof c))).
(** do:, kernel/MappedColl.st:141-146; also contents, 124-132: the objects the block gets. *)
Definition do_ (c : mapped) : outcome (list Z) := each (seq_at (domain c)) (map_do (mapof c)).
(** keys and keysDo:, kernel/MappedColl.st:148-153, 163-168. *)
Definition keys (c : mapped) : list Z := map_keys (mapof c).
(** keysAndValuesDo:, kernel/MappedColl.st:155-161. *)
Definition keys_and_values_do (c : mapped) : outcome (list (Z * Z)) :=
  each (fun k => olet v := at_ c k in Ok (k, v)) (map_do (mapof c)).
(** atAll: of the map, kernel/ArrayColl.st:205-216 and kernel/Dictionary.st:122-131 (a key that
    comes again replaces what was there; here the keys are different). *)
Definition map_at_all (m : mapping) (ks : list Z) : outcome mapping :=
  match m with
  | MSeq l => olet vs := each (seq_at l) ks in Ok (MSeq vs)
  | MDict l => olet vs := each (dict_at l) ks in Ok (MDict (combine ks vs))
  end.
(** atAll:, kernel/MappedColl.st:81-89. *)
Definition at_all (c : mapped) (ks : list Z) : outcome mapped :=
  olet m := map_at_all (mapof c) ks in Ok (Mp (domain c) m).
(** copyFrom:to:, kernel/MappedColl.st:134-139. *)
Definition copy_from_to (c : mapped) (a b : Z) : outcome (list Z) :=
  olet m := map_at_all (mapof c) (map (fun n => a + Z.of_nat n) (List.seq 0 (Z.to_nat (b - a + 1)))) in
  each (seq_at (domain c)) (map_do m).
(** What collect: answers: a copy of the map with other objects, or a MappedCollection. *)
Inductive collected := Plain (m : mapping) | Again (c : mapped).
(** collect: of the map, kernel/ArrayColl.st:299-309 and kernel/Dictionary.st:368-378. *)
Definition map_collect (f : Z -> outcome Z) (m : mapping) : outcome mapping :=
  match m with
  | MSeq l => olet vs := each f l in Ok (MSeq vs)
  | MDict l => olet vs := each f (map snd l) in Ok (MDict (combine (map fst l) vs))
  end.
(** collect:, kernel/MappedColl.st:170-183. *)
Definition collect (f : Z -> Z) (c : mapped) : outcome collected :=
  if (length (map_do (mapof c)) <? length (domain c))%nat then
    olet m := map_collect (fun k => olet v := at_ c k in Ok (f v)) (mapof c) in Ok (Plain m)
  else Ok (Again (Mp (map f (domain c)) (mapof c))).
(** select: and reject: of the map, kernel/ArrayColl.st:275-297 and kernel/Dictionary.st:380-402. *)
Definition map_select (f : Z -> outcome bool) (m : mapping) : outcome mapping :=
  match m with
  | MSeq l => olet vs := keep f l in Ok (MSeq vs)
  | MDict l => olet vs := keep (fun a => f (snd a)) l in Ok (MDict vs)
  end.
(** select: and reject:, kernel/MappedColl.st:185-201. *)
Definition select (p : Z -> bool) (c : mapped) : outcome mapped :=
  olet m := map_select (fun k => olet v := at_ c k in Ok (p v)) (mapof c) in Ok (Mp (domain c) m).
(** As above. *)
Definition reject (p : Z -> bool) (c : mapped) : outcome mapped :=
  olet m := map_select (fun k => olet v := at_ c k in Ok (negb (p v))) (mapof c) in Ok (Mp (domain c) m).
