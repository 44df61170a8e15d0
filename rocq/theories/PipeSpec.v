(** What streams made from streams should give: lists. *)
From Verif Require Import Base Pipe.

(** One line of a text, and what is after it.  A nil counts as an end of line. *)
Fixpoint line (l : list obj) : list obj * list obj :=
  match l with
  | [] => ([], [])
  | Atom 10 :: l => ([], l)
  | Nil :: l => ([], l)
  | Atom 13 :: Atom 10 :: l => ([], l)
  | Atom 13 :: l => ([], l)
  | c :: l => let (a, r) := line l in (c :: a, r)
  end.
(** The lines of a text. *)
Fixpoint lines_from (n : nat) (l : list obj) : list (list obj) :=
  match n, l with
  | S n, _ :: _ => let (a, r) := line l in a :: lines_from n r
  | _, _ => []
  end.
Definition lines (l : list obj) : list (list obj) := lines_from (length l) l.

(** The elements of several lists, taken together. *)
Fixpoint zips (ls : list (list obj)) : list (list obj) :=
  match ls with
  | [] => []
  | [l] => map (fun x => [x]) l
  | l :: ls => map (fun xy => fst xy :: snd xy) (combine l (zips ls))
  end.

(** The objects that a stream should give. *)
Fixpoint meaning (e : expr) : list obj :=
  match e with
  | From l => l
  | Cat e e' => meaning e ++ meaning e'
  | CatItems e l => meaning e ++ l
  | Select e p => filter p (meaning e)
  | Reject e p => filter (fun x => negb (p x)) (meaning e)
  | Map e f => map f (meaning e)
  | ByLine e => map Tuple (lines (meaning e))
  | Zip e e' => map Tuple (zips [meaning e; meaning e'])
  | Zip3 e e' e'' => map Tuple (zips [meaning e; meaning e'; meaning e''])
  end.

(** What messages should answer when a stream has still [l] to give and has given
    [n] objects, and what it has to give after that. *)
Definition answer (o : op) (l : list obj) (n : Z) : obj :=
  match o with
  | AtEnd => Flag (match l with [] => true | _ => false end)
  | Next | Peek => match l with [] => Nil | x :: _ => x end
  | PeekFor x => Flag (match l with [] => false | y :: _ => eqb y x end)
  | Position => Atom n
  | Line acc => Tuple (rev acc ++ fst (line l))
  | _ => Nil
  end.
Definition left (o : op) (l : list obj) : list obj :=
  match o with
  | Next => tl l
  | PeekFor x => match l with [] => [] | y :: t => if eqb y x then t else l end
  | Line _ => snd (line l)
  | _ => l
  end.
Fixpoint answers (ops : list op) (l : list obj) (n : Z) : list obj :=
  match ops with
  | [] => []
  | o :: ops => answer o l n :: answers ops (left o l) (n + Z.of_nat (length l) - Z.of_nat (length (left o l)))
  end.
Fixpoint left_all (ops : list op) (l : list obj) : list obj :=
  match ops with [] => l | o :: ops => left_all ops (left o l) end.

(** ** What is asked of programs *)
(** Streams whose position can be asked. *)
Fixpoint positioned (e : expr) : Prop :=
  match e with
  | From _ | Cat _ _ | CatItems _ _ => True
  | Map e _ => positioned e
  | _ => False
  end.
(** Streams for which [peekFor: x] works. *)
Definition atomic (x : obj) : Prop := match x with Tuple _ => False | _ => True end.
Fixpoint peeks (x : obj) (e : expr) : Prop :=
  match e with
  | From _ | ByLine _ => True
  | Cat e e' => peeks x e /\ peeks x e'
  | CatItems e _ => peeks x e
  | Select _ _ | Reject _ _ => atomic x
  | Map _ _ | Zip _ _ | Zip3 _ _ _ => False
  end.
(** Streams that answer nil at their end. *)
Definition ends_nil (e : expr) : Prop := match e with ByLine _ => False | _ => True end.
(** A collection is not added to a concatenation. *)
Definition no_cat (e : expr) : Prop := match e with Cat _ _ | CatItems _ _ => False | _ => True end.
(** The first stream taken together with others has a position. *)
Fixpoint has_position (e : expr) : Prop :=
  match e with
  | From _ | Cat _ _ | CatItems _ _ => True
  | Map e _ | Zip e _ | Zip3 e _ _ => has_position e
  | _ => False
  end.
Fixpoint fine (e : expr) : Prop :=
  match e with
  | From _ => True
  | Cat e e' => fine e /\ fine e'
  | CatItems e _ => fine e /\ no_cat e
  | Select e _ | Reject e _ | Map e _ => fine e
  | ByLine e => fine e /\ peeks LF e
  | Zip e e' => fine e /\ fine e' /\ has_position e
  | Zip3 e e' e'' => fine e /\ fine e' /\ fine e'' /\ has_position e
  end.

(** Messages that a program may send to the stream. *)
Definition may (e : expr) (o : op) (l : list obj) : Prop :=
  match o with
  | AtEnd | Peek => True
  | Next => l <> [] \/ ends_nil e
  | PeekFor x => peeks x e
  | Position => positioned e
  | Line acc => acc = [] /\ peeks LF e
  | _ => False
  end.
Fixpoint may_all (e : expr) (ops : list op) (l : list obj) : Prop :=
  match ops with [] => True | o :: ops => may e o l /\ may_all e ops (left o l) end.

(** A bound for the work needed. *)
Fixpoint size (e : expr) : nat :=
  match e with
  | From l => 1 + length l
  | Cat e e' => 5 + size e + size e'
  | CatItems e l => 6 + size e + length l
  | Select e _ | Reject e _ => 4 + size e
  | Map e _ => 1 + size e
  | ByLine e => 5 + size e
  | Zip e e' => 3 + size e + size e'
  | Zip3 e e' e'' => 4 + size e + size e' + size e''
  end.
