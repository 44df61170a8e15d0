(** Model of LinkedList and Link (kernel/LinkedList.st, kernel/Link.st).  Links are numbers, nil is [None],
    and the nextLink of all links is a function from links. *)
From Verif Require Import Base.
Import ListNotations.
Local Open Scope Z_scope.

(** The nextLink of each link (kernel/Link.st:35-36). *)
Definition heap : Type := Z -> option Z.

(** nextLink: (kernel/Link.st:100-105). *)
Definition set (h : heap) (x : Z) (v : option Z) : heap := fun y => if y =? x then v else h y.

(** firstLink and lastLink (kernel/LinkedList.st:35-36). *)
Record lst := mk { firstl : option Z; lastl : option Z }.

(** == on links and nil. *)
Definition same (a b : option Z) : bool :=
  match a, b with Some x, Some y => x =? y | None, None => true | _, _ => false end.

(** addFirst: (kernel/LinkedList.st:65-72). *)
Definition add_first (h : heap) (l : lst) (x : Z) : heap * lst :=
  let last := match lastl l with None => Some x | Some y => Some y end in
  (set h x (firstl l), mk (Some x) last).

(** addLast:, and add: (kernel/LinkedList.st:57-63, 74-81). *)
Definition add_last (h : heap) (l : lst) (x : Z) : heap * lst :=
  let first := match firstl l with None => Some x | Some y => Some y end in
  let h := match lastl l with Some y => set h y (Some x) | None => h end in
  (h, mk first (Some x)).

(** The loop of remove:ifAbsent:, [None] if aBlock is evaluated (kernel/LinkedList.st:136-138). *)
Fixpoint find_prev (fuel : nat) (h : heap) (prev : option Z) (x : option Z) : outcome (option Z) :=
  match fuel with
  | O => OutOfFuel
  | S fuel => match prev with
              | None => Ok None
              | Some p => if same (h p) x then Ok (Some p) else find_prev fuel h (h p) x
              end
  end.

(** What remove:ifAbsent: answers: a link, or the value of aBlock; with the new state. *)
Definition answer : Type := option Z * (heap * lst).

(** remove:ifAbsent:.  nil does not understand nextLink (kernel/LinkedList.st:121-143). *)
Definition remove_if_absent (fuel : nat) (h : heap) (l : lst) (x : option Z) : outcome answer :=
  if same x (firstl l) then
    match x with
    | None => Ok (None, (h, l))
    | Some a => let first := h a in
                let last := match first with None => None | Some _ => lastl l end in
                Ok (Some a, (set h a None, mk first last))
    end
  else olet r := find_prev fuel h (firstl l) x in
       match r with
       | None => Ok (None, (h, l))
       | Some p => match x with
                   | None => Err
                   | Some a => let h1 := set h p (h a) in
                               let last := if same x (lastl l) then Some p else lastl l in
                               Ok (Some a, (set h1 a None, mk (firstl l) last))
                   end
       end.

(** removeFirst and removeLast; on an empty list they signal an error, which is [None] here
    (kernel/LinkedList.st:103-119). *)
Definition remove_first (fuel : nat) (h : heap) (l : lst) : outcome answer := remove_if_absent fuel h l (firstl l).
Definition remove_last (fuel : nat) (h : heap) (l : lst) : outcome answer := remove_if_absent fuel h l (lastl l).

(** Link>>do: with the links that it gives to aBlock (kernel/Link.st:71-80). *)
Fixpoint walk (fuel : nat) (h : heap) (item : Z) : outcome (list Z) :=
  match fuel with
  | O => OutOfFuel
  | S fuel => match h item with
              | None => Ok [item]
              | Some y => olet t := walk fuel h y in Ok (item :: t)
              end
  end.

(** do: (kernel/LinkedList.st:145-151). *)
Definition do_ (fuel : nat) (h : heap) (l : lst) : outcome (list Z) :=
  match firstl l with None => Ok [] | Some x => walk fuel h x end.

(** The loop of Link>>size (kernel/Link.st:82-91). *)
Fixpoint count (fuel : nat) (h : heap) (item : Z) (n : Z) : outcome Z :=
  match fuel with
  | O => OutOfFuel
  | S fuel => match h item with None => Ok n | Some y => count fuel h y (n + 1) end
  end.

(** size (kernel/LinkedList.st:189-194). *)
Definition size (fuel : nat) (h : heap) (l : lst) : outcome Z :=
  match firstl l with None => Ok 0 | Some x => count fuel h x 1 end.

(** The loop of Link>>at: (kernel/Link.st:50-64). *)
Fixpoint at_loop (fuel : nat) (h : heap) (i index : Z) (element : Z) : outcome Z :=
  match fuel with
  | O => OutOfFuel
  | S fuel => if i =? index then Ok element
              else match h element with None => Err | Some y => at_loop fuel h (i + 1) index y end
  end.

(** at: (kernel/LinkedList.st:43-50). *)
Definition at_ (fuel : nat) (h : heap) (l : lst) (index : Z) : outcome Z :=
  match firstl l with
  | None => Err
  | Some x => if 1 <=? index then at_loop fuel h 1 index x else Err
  end.

(** includes: and identityIncludes:, which end the loop of do: when they find the link
    (kernel/LinkedList.st:153-173).  = of links is ==. *)
Fixpoint inc_loop (fuel : nat) (h : heap) (item : Z) (x : Z) : outcome bool :=
  match fuel with
  | O => OutOfFuel
  | S fuel => if x =? item then Ok true
              else match h item with None => Ok false | Some y => inc_loop fuel h y x end
  end.
Definition includes (fuel : nat) (h : heap) (l : lst) (x : Z) : outcome bool :=
  match firstl l with None => Ok false | Some i => inc_loop fuel h i x end.

(** first and last (kernel/LinkedList.st:83-101). *)
Definition first_ (l : lst) : outcome Z := match firstl l with None => Err | Some x => Ok x end.
Definition last_ (l : lst) : outcome (option Z) := match firstl l with None => Err | Some _ => Ok (lastl l) end.

(** A program: messages to any of several lists, whose links are in one heap. *)
Inductive msg := AddFirst (i : nat) (x : Z) | AddLast (i : nat) (x : Z)
  | RemoveFirst (i : nat) | RemoveLast (i : nat) | Remove (i : nat) (x : Z).

(** The lists. *)
Definition putl (ls : nat -> lst) (i : nat) (l : lst) : nat -> lst := fun j => if (j =? i)%nat then l else ls j.

(** One message (kernel/LinkedList.st:57-143). *)
Definition send (fuel : nat) (s : heap * (nat -> lst)) (m : msg) : outcome (option Z * (heap * (nat -> lst))) :=
  let '(h, ls) := s in
  let back i (r : outcome answer) := olet a := r in Ok (fst a, (fst (snd a), putl ls i (snd (snd a)))) in
  match m with
  | AddFirst i x => back i (Ok (Some x, add_first h (ls i) x))
  | AddLast i x => back i (Ok (Some x, add_last h (ls i) x))
  | RemoveFirst i => back i (remove_first fuel h (ls i))
  | RemoveLast i => back i (remove_last fuel h (ls i))
  | Remove i x => back i (remove_if_absent fuel h (ls i) (Some x))
  end.

(** All of them, with their answers. *)
Fixpoint sends (fuel : nat) (s : heap * (nat -> lst)) (ms : list msg) : outcome (list (option Z) * (heap * (nat -> lst))) :=
  match ms with
  | [] => Ok ([], s)
  | m :: ms => olet r := send fuel s m in
               olet t := sends fuel (snd r) ms in Ok (fst r :: fst t, snd t)
  end.
