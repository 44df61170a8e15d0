(** C135: Rectangles are sets of points. *)
From Verif Require Import Base Rect RectSpec RectProofs.
Local Open Scope Z_scope.

(** containsPoint: *)
Theorem C135_point : forall r p, contains_point r p = true <-> before (origin r) p /\ px p < px (corner r) /\ py p < py (corner r).
Proof. exact point_ok. Qed.
Print Assumptions C135_point.

(** The comparisons of Points, and max: and min: as bounds. *)
Theorem C135_order : forall a b, (ple a b = true <-> before a b) /\ (pge a b = true <-> before b a) /\ pgt a b = plt b a /\
  (plt a b = true -> before a b /\ ~ before b a) /\ (peq a b = true <-> a = b).
Proof. exact order_ok. Qed.
Print Assumptions C135_order.
Theorem C135_bounds : forall a b c, before a (pmax a b) /\ before b (pmax a b) /\ (before a c -> before b c -> before (pmax a b) c) /\
  before (pmin a b) a /\ before (pmin a b) b /\ (before c a -> before c b -> before c (pmin a b)).
Proof. exact bounds_ok. Qed.
Print Assumptions C135_bounds.
Example C135_bounds_ex : pmax (P 1 5) (P 3 2) = P 3 5 /\ pmin (P 1 5) (P 3 2) = P 1 2.
Proof. vm_compute. auto. Qed.

(** normalized keeps the points. *)
Theorem C135_normalized : forall r, before (origin (normalized r)) (corner (normalized r)) /\
  (forall p, covers (normalized r) p <-> covers r p) /\ normalized (normalized r) = normalized r.
Proof. exact normalized_ok. Qed.
Print Assumptions C135_normalized.
Example C135_normalized_ex : normalized (Rc (P 5 1) (P 2 7)) = Rc (P 2 1) (P 5 7).
Proof. reflexivity. Qed.

(** intersect: answers the common points, and nil if there are none. *)
Theorem C135_intersect : forall r s,
  match intersect r s with
  | Some x => proper x /\ (forall p, contains_point x p = true <-> covers r p /\ covers s p)
  | None => forall p, ~ (covers r p /\ covers s p)
  end.
Proof. exact intersect_ok. Qed.
Print Assumptions C135_intersect.
Theorem C135_intersects : forall r s, intersects r s = true <-> exists p, covers r p /\ covers s p.
Proof. exact intersects_ok. Qed.
Print Assumptions C135_intersects.
Example C135_intersect_ex : intersect (Rc (P 0 0) (P 4 4)) (Rc (P 6 1) (P 2 9)) = Some (Rc (P 2 1) (P 4 4)) /\
  intersect (Rc (P 0 0) (P 4 4)) (Rc (P 4 0) (P 9 9)) = None.
Proof. vm_compute. auto. Qed.

(** merge: answers the least Rectangle with all the points of both. *)
Theorem C135_merge : forall r s, proper r -> proper s -> proper (merge r s) /\
  (forall p, covers r p \/ covers s p -> contains_point (merge r s) p = true) /\
  (forall u, (forall p, covers r p \/ covers s p -> contains_point u p = true) ->
     forall p, contains_point (merge r s) p = true -> contains_point u p = true).
Proof. exact merge_ok. Qed.
Print Assumptions C135_merge.
Example C135_merge_ex : proper (Rc (P 0 0) (P 1 1)) /\ proper (Rc (P 5 (-3)) (P 6 0)) /\ merge (Rc (P 0 0) (P 1 1)) (Rc (P 5 (-3)) (P 6 0)) = Rc (P 0 (-3)) (P 6 1).
Proof. repeat split. Qed.

(** areasOutside: of two Rectangles that meet: each point of the receiver outside of the other is in
    exactly one of the areas, no other point is in any, and no area is empty. *)
Theorem C135_areas : forall r s, (exists p, covers r p /\ covers s p) -> exists l, areas_outside r s = Ok l /\ Forall proper l /\
  (forall p, covers r p -> ~ covers s p -> length (filter (fun a => contains_point a p) l) = 1%nat) /\
  (forall p, ~ (covers r p /\ ~ covers s p) -> filter (fun a => contains_point a p) l = []).
Proof. exact areas_ok. Qed.
Print Assumptions C135_areas.
Example C135_areas_ex : areas_outside (Rc (P 0 0) (P 9 9)) (Rc (P 3 3) (P 6 6)) =
  Ok [Rc (P 0 0) (P 3 9); Rc (P 3 0) (P 6 3); Rc (P 3 6) (P 6 9); Rc (P 6 0) (P 9 9)] /\
  covers (Rc (P 0 0) (P 9 9)) (P 3 3) /\ covers (Rc (P 3 3) (P 6 6)) (P 3 3).
Proof. split; [vm_compute; reflexivity|]. unfold covers. lia. Qed.

(** Of two that do not meet it is an error: nil does not understand area. *)
Theorem C135_areas_refuted : exists r s, proper r /\ proper s /\ areas_outside r s = Err.
Proof. exists (Rc (P 0 0) (P 1 1)), (Rc (P 5 5) (P 6 6)). repeat split. Qed.
Print Assumptions C135_areas_refuted.

(** contains: only answers true when all points are contained, and does so when they are and the
    corners do not touch. *)
Theorem C135_contains : forall r s, contains r s = true -> forall p, covers s p -> contains_point r p = true.
Proof. exact contains_ok. Qed.
Print Assumptions C135_contains.
Theorem C135_contains_inner : forall r s, proper s -> (forall p, covers s p -> contains_point r p = true) ->
  right s < right r -> bottom s < bottom r -> contains r s = true.
Proof. exact contains_inner. Qed.
Print Assumptions C135_contains_inner.
Example C135_contains_ex : contains (Rc (P 0 0) (P 9 9)) (Rc (P 0 0) (P 8 8)) = true.
Proof. reflexivity. Qed.

(** A Rectangle does not contain itself. *)
Theorem C135_contains_refuted : exists r, proper r /\ contains r r = false.
Proof. exists (Rc (P 0 0) (P 1 1)). repeat split. Qed.
Print Assumptions C135_contains_refuted.

(** normalize leaves the origin below and to the right of the corner. *)
Theorem C135_normalize_refuted : exists r, proper r /\ ~ before (origin (normalize r)) (corner (normalize r)) /\ normalized r = r.
Proof. exists (Rc (P 0 0) (P 1 1)). repeat split. unfold before. cbn. lia. Qed.
Print Assumptions C135_normalize_refuted.
(** This is all that is wrong with it. *)
Theorem C135_normalize : forall r, before (corner (normalize r)) (origin (normalize r)) /\
  (forall p, covers (normalize r) p <-> covers r p) /\ normalize (normalize r) = normalize r.
Proof. exact normalize_ok. Qed.
Print Assumptions C135_normalize.
Example C135_normalize_ex : normalize (Rc (P 5 1) (P 2 7)) = Rc (P 5 7) (P 2 1).
Proof. reflexivity. Qed.

(** translatedToBeWithin: keeps the extent and fits what can fit. *)
Theorem C135_within : forall r s, proper r -> proper s -> width r <= width s -> height r <= height s ->
  extent (translated_within r s) = extent r /\ (forall p, covers (translated_within r s) p -> contains_point s p = true).
Proof. exact within_ok. Qed.
Print Assumptions C135_within.
Example C135_within_ex : translated_within (Rc (P 7 7) (P 12 12)) (Rc (P 0 0) (P 9 9)) = Rc (P 0 0) (P 5 5) /\
  translated_within (Rc (P 1 1) (P 2 2)) (Rc (P 0 0) (P 9 9)) = Rc (P 1 1) (P 2 2).
Proof. vm_compute. auto. Qed.

(** Moving keeps the extent and moves the points; the extent and the origin make a Rectangle. *)
Theorem C135_moving : forall r d p q, extent (translate r d) = extent r /\
  (covers (translate r d) (shifted (px d) (py d) p) <-> covers r p) /\
  origin (move_to r q) = q /\ extent (move_to r q) = extent r /\ with_extent (origin r) (extent r) = r.
Proof. exact moving. Qed.
Print Assumptions C135_moving.
(** expandBy: and insetBy: undo each other. *)
Theorem C135_expand : forall r d, inset (expand r d) d = r /\ expand (inset r d) d = r.
Proof. exact expanding. Qed.
Print Assumptions C135_expand.
Theorem C135_expanded : forall r n p, 0 <= n -> contains_point (expand r (DNumber n)) p = true <->
  px (origin r) - n <= px p < px (corner r) + n /\ py (origin r) - n <= py p < py (corner r) + n.
Proof. exact expanded. Qed.
Print Assumptions C135_expanded.
Theorem C135_scale : forall r s, area (scale r s) = area r * (px s * py s) /\ transpose (transpose (origin r)) = origin r.
Proof. exact scaling. Qed.
Print Assumptions C135_scale.
Theorem C135_equal : forall r s, req r s = true <-> r = s.
Proof. exact equal_ok. Qed.
Print Assumptions C135_equal.
Example C135_expand_ex : expand (Rc (P 2 2) (P 4 4)) (DRect (Rc (P 1 0) (P 0 5))) = Rc (P 1 2) (P 4 9) /\ area (scale (Rc (P 2 2) (P 4 4)) (P 3 1)) = 12.
Proof. vm_compute. auto. Qed.
