(** Occurrences of a sequence in another, and cutting at them. *)
From Verif Require Import Base.

Section Spec.
  Context {A : Type}.
  Variable eqb : A -> A -> bool.
  (** The elements of [m] answer true when compared with those of [sub]. *)
  Definition same (m sub : list A) : Prop := Forall2 (fun x y => eqb x y = true) m sub.
  (** After [k] elements of [s] comes something like [sub]. *)
  Definition occurs (sub s : list A) (k : nat) : Prop :=
    exists a m b, s = a ++ m ++ b /\ length a = k /\ same m sub.
  (** [s] is the pieces [ps], each followed by an occurrence of [sub], and then [t]. Each occurrence is the
      first after the one before, and there is none in [t]. *)
  Inductive cut (sub : list A) : list A -> list (list A) -> list A -> Prop :=
  | Cut_end s : (forall k, ~ occurs sub s k) -> cut sub s [] s
  | Cut_first p m s ps t : same m sub -> (forall k, (k < length p)%nat -> ~ occurs sub (p ++ m ++ s) k) ->
      cut sub s ps t -> cut sub (p ++ m ++ s) (p :: ps) t.
  (** The pieces put together again with [new] for each occurrence. *)
  Definition pasted (new : list A) (ps : list (list A)) (t : list A) : list A :=
    concat (map (fun p => p ++ new) ps) ++ t.
  (** The elements from [start] to [stop], counted from 1, exist, or there are none between. *)
  Definition valid (l : list A) (start stop : Z) : Prop := 1 <= start <= stop + 1 /\ stop <= Z.of_nat (length l).
  (** Without the elements from [start] to [stop], and with [rep] there instead. *)
  Definition spliced (l : list A) (start stop : Z) (rep : list A) : list A :=
    firstn (Z.to_nat (start - 1)) l ++ rep ++ skipn (Z.to_nat stop) l.
  (** The elements from [start] to [stop]. *)
  Definition slice (l : list A) (start stop : Z) : list A :=
    firstn (Z.to_nat (stop - start + 1)) (skipn (Z.to_nat (start - 1)) l).
  (** The lists one after the other with [sep] between. *)
  Fixpoint joined (ls : list (list A)) (sep : list A) : list A :=
    match ls with
    | [] => []
    | [l] => l
    | l :: ls => l ++ sep ++ joined ls sep
    end.
End Spec.
