(** Points and Rectangles with Integer coordinates, kernel/Point.st and kernel/Rectangle.st.  A
    method that changes its receiver answers the changed one here; that two Rectangles may share
    a Point (corner: does not copy) is not modelled.  An error (a message not understood) is
    [Err]. *)
From Verif Require Import Base.
Local Open Scope Z_scope.

(** kernel/Point.st:36-37. *)
Record point := P { px : Z; py : Z }.
(** + - * max: min:, kernel/Point.st:128-153, 235-247. *)
Definition padd (a b : point) : point := P (px a + px b) (py a + py b).
Definition psub (a b : point) : point := P (px a - px b) (py a - py b).
Definition pmul (a b : point) : point := P (px a * px b) (py a * py b).
Definition pmax (a b : point) : point := P (Z.max (px a) (px b)) (Z.max (py a) (py b)).
Definition pmin (a b : point) : point := P (Z.min (px a) (px b)) (Z.min (py a) (py b)).
(** = < > <= >=, kernel/Point.st:198-233. *)
Definition peq (a b : point) : bool := (px a =? px b) && (py a =? py b).
Definition plt (a b : point) : bool := (px a <? px b) && (py a <? py b).
Definition pgt (a b : point) : bool := (px b <? px a) && (py b <? py a).
Definition ple (a b : point) : bool := (px a <=? px b) && (py a <=? py b).
Definition pge (a b : point) : bool := (px b <=? px a) && (py b <=? py a).
(** transpose, kernel/Point.st:291-297. *)
Definition transpose (a : point) : point := P (py a) (px a).

(** kernel/Rectangle.st:36. *)
Record rect := Rc { origin : point; corner : point }.
(** left, right, top, bottom, width, height and extent, kernel/Rectangle.st:81-86, 152-157, 166-171, 180-185,
    240-245, 261-266, 311-316. *)
Definition left (r : rect) : Z := px (origin r).
Definition right (r : rect) : Z := px (corner r).
Definition top (r : rect) : Z := py (origin r).
Definition bottom (r : rect) : Z := py (corner r).
Definition width (r : rect) : Z := right r - left r.
Definition height (r : rect) : Z := bottom r - top r.
Definition extent (r : rect) : point := psub (corner r) (origin r).
(** origin:extent:, kernel/Rectangle.st:58-63. *)
Definition with_extent (o e : point) : rect := Rc o (padd o e).
(** area, kernel/Rectangle.st:391-398. *)
Definition area (r : rect) : Z := width r * height r.
(** containsPoint: and contains:, kernel/Rectangle.st:325-341. *)
Definition contains_point (r : rect) (p : point) : bool := pge p (origin r) && plt p (corner r).
Definition contains (r s : rect) : bool := contains_point r (origin s) && contains_point r (corner s).
(** =, kernel/Rectangle.st:360-366. *)
Definition req (r s : rect) : bool := peq (origin r) (origin s) && peq (corner r) (corner s).
(** normalized, kernel/Rectangle.st:559-566. *)
Definition normalized (r : rect) : rect :=
  if (left r <? right r) && (top r <? bottom r) then r
  else Rc (pmin (origin r) (corner r)) (pmax (origin r) (corner r)).
(** normalize, kernel/Rectangle.st:542-557. *)
Definition normalize (r : rect) : rect :=
  let r := if left r <? right r then Rc (P (right r) (top r)) (P (left r) (bottom r)) else r in
  if top r <? bottom r then Rc (P (left r) (bottom r)) (P (right r) (top r)) else r.
(** intersects:, kernel/Rectangle.st:343-358. *)
Definition intersects (r s : rect) : bool :=
  let a := normalized r in
  let b := normalized s in
  let ri := Z.min (right a) (right b) in
  let le := Z.max (left a) (left b) in
  if ri <=? le then false
  else
    let bo := Z.min (bottom a) (bottom b) in
    let to := Z.max (top a) (top b) in
    to <? bo.
(** intersect:, kernel/Rectangle.st:495-511; [None] is nil. *)
Definition intersect (r s : rect) : option rect :=
  let a := normalized r in
  let b := normalized s in
  let ri := Z.min (right a) (right b) in
  let le := Z.max (left a) (left b) in
  if ri <=? le then None
  else
    let bo := Z.min (bottom a) (bottom b) in
    let to := Z.max (top a) (top b) in
    if bo <=? to then None else Some (Rc (P le to) (P ri bo)).
(** merge:, kernel/Rectangle.st:486-493. *)
Definition merge (r s : rect) : rect := Rc (pmin (origin r) (origin s)) (pmax (corner r) (corner s)).
(** translateBy:, moveBy: and moveTo:, kernel/Rectangle.st:590-607, 617-623. *)
Definition translate (r : rect) (d : point) : rect := Rc (padd (origin r) d) (padd (corner r) d).
Definition move_to (r : rect) (p : point) : rect :=
  let diff := psub p (origin r) in Rc p (padd (corner r) diff).
(** scaleBy:, kernel/Rectangle.st:609-615. *)
Definition scale (r : rect) (s : point) : rect := Rc (pmul (origin r) s) (pmul (corner r) s).
(** expandBy: and insetBy: with a Point, a Rectangle or a Number, kernel/Rectangle.st:431-475. *)
Inductive delta := DPoint (p : point) | DRect (r : rect) | DNumber (n : Z).
Definition expand (r : rect) (d : delta) : rect :=
  match d with
  | DPoint p => Rc (psub (origin r) p) (padd (corner r) p)
  | DRect s => Rc (psub (origin r) (origin s)) (padd (corner r) (corner s))
  | DNumber n => Rc (P (px (origin r) - n) (py (origin r) - n)) (P (px (corner r) + n) (py (corner r) + n))
  end.
Definition inset (r : rect) (d : delta) : rect :=
  match d with
  | DPoint p => Rc (padd (origin r) p) (psub (corner r) p)
  | DRect s => Rc (padd (origin r) (origin s)) (psub (corner r) (corner s))
  | DNumber n => Rc (P (px (origin r) + n) (py (origin r) + n)) (P (px (corner r) - n) (py (corner r) - n))
  end.
(** amountToTranslateWithin: and translatedToBeWithin:, kernel/Rectangle.st:375-389. *)
Definition amount_within (r s : rect) : point := if contains s r then P 0 0 else psub (origin s) (origin r).
Definition translated_within (r s : rect) : rect := translate r (amount_within r s).
(** areasOutside:, kernel/Rectangle.st:400-429; nil does not understand area. *)
Definition areas_outside (r s : rect) : outcome (list rect) :=
  match intersect r s with
  | None => Err
  | Some x =>
      if area x =? 0 then Ok [r]
      else
        let l := Z.min (left r) (right r) in
        let ri := Z.max (left r) (right r) in
        let t := Z.min (top r) (bottom r) in
        let b := Z.max (top r) (bottom r) in
        Ok ((if l =? left x then [] else [Rc (P l t) (P (left x) b)]) ++
            (if t =? top x then [] else [Rc (P (left x) t) (P (right x) (top x))]) ++
            (if b =? bottom x then [] else [Rc (P (left x) (bottom x)) (P (right x) b)]) ++
            (if ri =? right x then [] else [Rc (P (right x) t) (P ri b)]))
  end.
