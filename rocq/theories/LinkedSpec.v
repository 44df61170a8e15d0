(** What LinkedLists are for: each is a sequence of links, no link is in two, and those that are in none have
    no next link (kernel/LinkedList.st:39-41). *)
From Verif Require Import Base Linked.
Import ListNotations.
Local Open Scope Z_scope.

(** Following the links from [o] one meets just those of [l] (kernel/Link.st:38-41). *)
Fixpoint chain (h : heap) (o : option Z) (l : list Z) : Prop :=
  match l with [] => o = None | x :: t => o = Some x /\ chain h (h x) t end.

(** [l] holds the links of [s] (kernel/LinkedList.st:35-41). *)
Definition holds (h : heap) (l : lst) (s : list Z) : Prop :=
  chain h (firstl l) s /\ lastl l = hd_error (rev s) /\ NoDup s.

(** All lists (kernel/LinkedList.st:35-41). *)
Definition world (h : heap) (ls : nat -> lst) (w : nat -> list Z) : Prop :=
  (forall i, holds h (ls i) (w i)) /\ (forall i j x, In x (w i) -> In x (w j) -> i = j) /\
  (forall x, (forall i, ~ In x (w i)) -> h x = None).

(** Sequences in place of lists. *)
Definition put (w : nat -> list Z) (i : nat) (s : list Z) : nat -> list Z := fun j => if (j =? i)%nat then s else w j.

(** A link is added only if it is in no list (kernel/LinkedList.st:39-41). *)
Definition allowed (w : nat -> list Z) (m : msg) : Prop :=
  match m with AddFirst _ x | AddLast _ x => forall j, ~ In x (w j) | _ => True end.

(** What each message does (the comments of kernel/LinkedList.st:57-143). *)
Definition meaning (w : nat -> list Z) (m : msg) : option Z * (nat -> list Z) :=
  match m with
  | AddFirst i x => (Some x, put w i (x :: w i))
  | AddLast i x => (Some x, put w i (w i ++ [x]))
  | RemoveFirst i => (hd_error (w i), put w i (tl (w i)))
  | RemoveLast i => (hd_error (rev (w i)), put w i (removelast (w i)))
  | Remove i x => (if in_dec Z.eq_dec x (w i) then Some x else None, put w i (remove Z.eq_dec x (w i)))
  end.

(** All messages, each allowed where it is sent. *)
Fixpoint meanings (w : nat -> list Z) (ms : list msg) (r : list (option Z)) (w' : nat -> list Z) : Prop :=
  match ms, r with
  | [], [] => w' = w
  | m :: ms, a :: r => allowed w m /\ a = fst (meaning w m) /\ meanings (snd (meaning w m)) ms r w'
  | _, _ => False
  end.
