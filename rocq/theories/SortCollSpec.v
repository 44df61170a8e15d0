(** What a sorted multiset answers to the messages of a SortedCollection. *)
From Coq Require Import Permutation Sorted.
From Verif Require Import Base SortColl.
Local Open Scope Z_scope.

Section Spec.
  Context {A : Type} (leb : A -> A -> bool).
  Definition in_order (l : list A) : Prop := StronglySorted (fun x y => leb x y = true) l.
  (** A total preorder. *)
  Definition preorder : Prop :=
    (forall x y, leb x y = true \/ leb y x = true) /\
    (forall x y z, leb x y = true -> leb y z = true -> leb x z = true).
  (** A sort block for it: either strict or not. *)
  Definition sort_block (R : A -> A -> bool) : Prop :=
    (forall x y, R x y = leb x y) \/ (forall x y, R x y = negb (leb y x)).
  (** Element number i, counting from 1. *)
  Definition pick (l : list A) (i : Z) : option A := if i <? 1 then None else nth_error l (Z.to_nat (i - 1)).
  Definition greatest (x : A) (l : list A) : Prop := In x l /\ forall y, In y l -> leb y x = true.

  (** [r] is the first index from [index] on where [P] holds, if there is one. *)
  Definition first_place (P : A -> bool) (l : list A) (index : Z) (r : option Z) : Prop :=
    match r with
    | Some j => index <= j /\ (exists x, pick l j = Some x /\ P x = true) /\
        (forall k x, index <= k < j -> pick l k = Some x -> P x = false)
    | None => forall k x, index <= k -> pick l k = Some x -> P x = false
    end.

  (** The state: the elements, and whether the order among them has been settled.  When it has not, a message
      that depends on it sees any ordered permutation and settles it. *)
  Definition seen (l : list A) (b : bool) (m : list A) : Prop :=
    if b then m = l else Permutation l m /\ in_order m.

  (** [sstep l b msg o l' b']: the message may answer [o]. *)
  Definition sstep (l : list A) (b : bool) (msg : smsg A) (o : sobs A) (l' : list A) (b' : bool) : Prop :=
    match msg with
    | MAdd x => o = OElt (Some x) /\ l' = l ++ [x] /\ b' = false
    | MAddAll xs => o = OList xs /\ l' = l ++ xs /\ b' = false
    | MFirst => seen l b l' /\ b' = true /\ o = OElt (pick l' 1)
    | MAt i => seen l b l' /\ b' = true /\ o = OElt (pick l' i)
    | MDo => seen l b l' /\ b' = true /\ o = OList l'
    | MSize => o = ONum (Z.of_nat (length l)) /\ l' = l /\ b' = b
    | MRemoveFirst =>
      b' = false /\ exists m, seen l b m /\
        match m with
        | [] => o = OElt None /\ l' = []
        | x :: m => o = OElt (Some x) /\ l' = m
        end
    | MRemoveAt i =>
      b' = false /\ exists m, seen l b m /\
        match pick m i with
        | None => o = OElt None /\ l' = m
        | Some x => o = OElt (Some x) /\ exists u v, m = u ++ x :: v /\ Z.of_nat (length u) + 1 = i /\ l' = u ++ v
        end
    (* nothing is said about the last element of no elements *)
    | MLast =>
      b' = b /\ (if b then l' = l else Permutation l l') /\
      (l <> [] -> exists x, o = OElt (Some x) /\ greatest x l /\ (b = true -> exists u, l = u ++ [x]))
    | MRemoveLast =>
      b' = false /\
      match l with
      | [] => o = OElt None /\ l' = []
      | _ => exists x, o = OElt (Some x) /\ greatest x l /\ (if b then l = l' ++ [x] else Permutation l (x :: l'))
      end
    end.
  Inductive sruns : list A -> bool -> list (smsg A) -> list (sobs A) -> Prop :=
  | sruns_nil l b : sruns l b [] []
  | sruns_cons l b m ms o os l' b' : sstep l b m o l' b' -> sruns l' b' ms os -> sruns l b (m :: ms) (o :: os).

  (** The elements after a history, whatever it answered. *)
  Inductive sgoes : list A -> bool -> list (smsg A) -> list A -> Prop :=
  | sgoes_nil l b : sgoes l b [] l
  | sgoes_cons l b m ms o l' b' l2 : sstep l b m o l' b' -> sgoes l' b' ms l2 -> sgoes l b (m :: ms) l2.
  Definition sends (l : list A) (b : bool) (ms : list (smsg A)) (m : list A) : Prop :=
    exists l2, Permutation l2 m /\ sgoes l b ms l2.

  (** Histories without an addition after removeLast, unless there is a message in between that asks for an
      element; [d] says that removeLast came last. *)
  Fixpoint calm (d : bool) (ms : list (smsg A)) : bool :=
    match ms with
    | [] => true
    | MAdd _ :: ms | MAddAll _ :: ms => negb d && calm false ms
    | MRemoveLast :: ms => calm true ms
    | MSize :: ms => calm d ms
    | _ :: ms => calm false ms
    end.
End Spec.
