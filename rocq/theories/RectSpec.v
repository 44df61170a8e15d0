(** Rectangles as sets of points. *)
From Verif Require Import Base Rect.
Local Open Scope Z_scope.

(** The points between two corners, in whichever order they are given: the upper and left edges
    belong to the rectangle, the lower and right ones do not. *)
Definition covers (r : rect) (p : point) : Prop :=
  let '(Rc (P x1 y1) (P x2 y2)) := r in let '(P x y) := p in
  (x1 <= x < x2 \/ x2 <= x < x1) /\ (y1 <= y < y2 \/ y2 <= y < y1).
(** The origin is above and to the left of the corner. *)
Definition proper (r : rect) : Prop :=
  let '(Rc (P x1 y1) (P x2 y2)) := r in x1 < x2 /\ y1 < y2.
(** Above and to the left of, or the same. *)
Definition before (a b : point) : Prop := let '(P x1 y1) := a in let '(P x2 y2) := b in x1 <= x2 /\ y1 <= y2.
(** Moved by a distance. *)
Definition shifted (dx dy : Z) (p : point) : point := let '(P x y) := p in P (x + dx) (y + dy).
