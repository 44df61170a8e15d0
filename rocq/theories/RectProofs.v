(** Proofs about Rectangles. *)
From Verif Require Import Base Rect RectSpec.
Local Open Scope Z_scope.

Ltac rects := repeat match goal with
  | r : rect |- _ => destruct r
  | p : point |- _ => destruct p
  end; unfold req, covers, proper, before, contains, contains_point, normalized, normalize, merge, translate, move_to, scale, area,
    with_extent, extent, width, height, left, right, top, bottom, peq, plt, pgt, ple, pge, padd, psub, pmul, pmax, pmin, shifted, transpose in *;
  cbn [origin corner px py] in *.

Lemma point_ok r p : contains_point r p = true <-> before (origin r) p /\ px p < px (corner r) /\ py p < py (corner r).
Proof. rects. lia. Qed.
Lemma proper_point r p : proper r -> (contains_point r p = true <-> covers r p).
Proof. rects. lia. Qed.

Lemma order_ok a b : (ple a b = true <-> before a b) /\ (pge a b = true <-> before b a) /\ pgt a b = plt b a /\
  (plt a b = true -> before a b /\ ~ before b a) /\ (peq a b = true <-> a = b).
Proof.
  rects. split; [lia|]. split; [lia|]. split; [lia|]. split; [lia|]. split.
  - intros H. f_equal; lia.
  - intros E. injection E as -> ->. lia.
Qed.
Lemma bounds_ok a b c : before a (pmax a b) /\ before b (pmax a b) /\ (before a c -> before b c -> before (pmax a b) c) /\
  before (pmin a b) a /\ before (pmin a b) b /\ (before c a -> before c b -> before c (pmin a b)).
Proof. rects. repeat split; lia. Qed.

Lemma normalized_ok r : before (origin (normalized r)) (corner (normalized r)) /\ (forall p, covers (normalized r) p <-> covers r p) /\
  normalized (normalized r) = normalized r.
Proof.
  destruct r as [[x1 y1] [x2 y2]]. unfold normalized, before, covers, left, right, top, bottom, pmin, pmax. cbn [origin corner px py].
  destruct ((x1 <? x2) && (y1 <? y2)) eqn:E; cbn [origin corner px py].
  - rewrite E. split; [lia|]. split; [|reflexivity]. tauto.
  - split; [lia|]. split; [intros [x y]; lia|].
    destruct ((Z.min x1 x2 <? Z.max x1 x2) && (Z.min y1 y2 <? Z.max y1 y2)); [reflexivity|].
    f_equal; f_equal; lia.
Qed.

Lemma normalized_edges r : left (normalized r) = Z.min (left r) (right r) /\ right (normalized r) = Z.max (left r) (right r) /\
  top (normalized r) = Z.min (top r) (bottom r) /\ bottom (normalized r) = Z.max (top r) (bottom r).
Proof.
  destruct r as [[x1 y1] [x2 y2]]. unfold normalized, left, right, top, bottom, pmin, pmax. cbn [origin corner px py].
  destruct ((x1 <? x2) && (y1 <? y2)) eqn:E; cbn [origin corner px py]; lia.
Qed.

Lemma covers_iff r p : covers r p <-> Z.min (left r) (right r) <= px p < Z.max (left r) (right r) /\ Z.min (top r) (bottom r) <= py p < Z.max (top r) (bottom r).
Proof. rects. lia. Qed.

Lemma intersect_some r s x : intersect r s = Some x -> proper x /\ (forall p, contains_point x p = true <-> covers r p /\ covers s p).
Proof.
  unfold intersect. destruct (normalized_edges r) as (-> & -> & -> & ->). destruct (normalized_edges s) as (-> & -> & -> & ->).
  destruct (Z.leb_spec (Z.min (Z.max (left r) (right r)) (Z.max (left s) (right s))) (Z.max (Z.min (left r) (right r)) (Z.min (left s) (right s)))); [discriminate|].
  destruct (Z.leb_spec (Z.min (Z.max (top r) (bottom r)) (Z.max (top s) (bottom s))) (Z.max (Z.min (top r) (bottom r)) (Z.min (top s) (bottom s)))); [discriminate|].
  intros E. injection E as <-. split; [unfold proper; lia|]. intros p. rewrite !covers_iff, point_ok. cbn [origin corner px py].
  destruct p as [x y]. unfold before. cbn [px py]. lia.
Qed.
Lemma intersect_none r s : intersect r s = None -> forall p, ~ (covers r p /\ covers s p).
Proof.
  unfold intersect. destruct (normalized_edges r) as (-> & -> & -> & ->). destruct (normalized_edges s) as (-> & -> & -> & ->).
  intros E p. rewrite !covers_iff. revert E.
  destruct (Z.leb_spec (Z.min (Z.max (left r) (right r)) (Z.max (left s) (right s))) (Z.max (Z.min (left r) (right r)) (Z.min (left s) (right s)))); [lia|].
  destruct (Z.leb_spec (Z.min (Z.max (top r) (bottom r)) (Z.max (top s) (bottom s))) (Z.max (Z.min (top r) (bottom r)) (Z.min (top s) (bottom s)))); [lia|discriminate].
Qed.
Lemma proper_origin r : proper r -> contains_point r (origin r) = true.
Proof. rects. lia. Qed.

Lemma intersect_ok r s :
  match intersect r s with
  | Some x => proper x /\ (forall p, contains_point x p = true <-> covers r p /\ covers s p)
  | None => forall p, ~ (covers r p /\ covers s p)
  end.
Proof. destruct (intersect r s) as [x|] eqn:E; [exact (intersect_some r s x E)|exact (intersect_none r s E)]. Qed.

Lemma intersects_some r s : intersects r s = match intersect r s with Some _ => true | None => false end.
Proof.
  unfold intersects, intersect. destruct (_ <=? _); [reflexivity|]. rewrite Z.ltb_antisym. destruct (_ <=? _); reflexivity.
Qed.
Lemma intersects_ok r s : intersects r s = true <-> exists p, covers r p /\ covers s p.
Proof.
  rewrite intersects_some. pose proof (intersect_ok r s) as H. destruct (intersect r s) as [x|].
  - split; [intros _|reflexivity]. destruct H as (Pr & H). exists (origin x). apply H, proper_origin, Pr.
  - split; [discriminate|]. intros (p & Hp). destruct (H p Hp).
Qed.

Lemma merge_ok r s : proper r -> proper s -> proper (merge r s) /\
  (forall p, covers r p \/ covers s p -> contains_point (merge r s) p = true) /\
  (forall u, (forall p, covers r p \/ covers s p -> contains_point u p = true) -> forall p, contains_point (merge r s) p = true -> contains_point u p = true).
Proof.
  intros Pr Ps. split; [rects; lia|]. split; [intros p; rects; lia|]. intros u H p Hp.
  destruct r as [[x1 y1] [x2 y2]], s as [[x3 y3] [x4 y4]], u as [[x5 y5] [x6 y6]], p as [x y]. unfold proper in *.
  pose proof (H (P x1 y1)) as H1. pose proof (H (P (x2 - 1) (y2 - 1))) as H2. pose proof (H (P x3 y3)) as H3. pose proof (H (P (x4 - 1) (y4 - 1))) as H4.
  clear H. rects. lia.
Qed.

Lemma areas_ok r s : (exists p, covers r p /\ covers s p) -> exists l, areas_outside r s = Ok l /\ Forall proper l /\
  (forall p, covers r p -> ~ covers s p -> length (filter (fun a => contains_point a p) l) = 1%nat) /\
  (forall p, ~ (covers r p /\ ~ covers s p) -> filter (fun a => contains_point a p) l = []).
Proof.
  intros Hi. apply intersects_ok in Hi. rewrite intersects_some in Hi. unfold areas_outside.
  pose proof (intersect_ok r s) as H. destruct (intersect r s) as [x|] eqn:Ei; [|discriminate]. destruct H as (Px & H).
  assert (BX : Z.min (left r) (right r) <= left x /\ right x <= Z.max (left r) (right r) /\ Z.min (top r) (bottom r) <= top x /\ bottom x <= Z.max (top r) (bottom r)).
  { revert Ei. unfold intersect. destruct (normalized_edges r) as (-> & -> & -> & ->). destruct (normalized_edges s) as (-> & -> & -> & ->).
    destruct (_ <=? _); [discriminate|]. destruct (_ <=? _); [discriminate|]. intros E. injection E as <-.
    split; [apply Z.le_max_l|]. split; [apply Z.le_min_l|]. split; [apply Z.le_max_l|apply Z.le_min_l]. }
  assert (PX : left x < right x /\ top x < bottom x) by (revert Px; clear; rects; tauto).
  assert (A0 : area x =? 0 = false) by (unfold area, width, height; apply Z.eqb_neq; nia).
  rewrite A0.
  assert (K : forall p, (covers r p /\ ~ covers s p) <->
    (Z.min (left r) (right r) <= px p < Z.max (left r) (right r) /\ Z.min (top r) (bottom r) <= py p < Z.max (top r) (bottom r)) /\
    ~ (left x <= px p < right x /\ top x <= py p < bottom x)).
  { intros p. specialize (H p). rewrite covers_iff in *. rewrite point_ok in H. revert H. clear.
    destruct x as [[x1 y1] [x2 y2]], p as [a b]. unfold before. cbn [origin corner px py].
    change (left (Rc (P x1 y1) (P x2 y2))) with x1. change (right (Rc (P x1 y1) (P x2 y2))) with x2.
    change (top (Rc (P x1 y1) (P x2 y2))) with y1. change (bottom (Rc (P x1 y1) (P x2 y2))) with y2. tauto. }
  eexists. split; [reflexivity|].
  set (L := Z.min (left r) (right r)) in *. set (R := Z.max (left r) (right r)) in *. set (T := Z.min (top r) (bottom r)) in *. set (B := Z.max (top r) (bottom r)) in *.
  clearbody L R T B. set (xl := left x) in *. set (xr := right x) in *. set (xt := top x) in *. set (xb := bottom x) in *. clearbody xl xr xt xb. clear H Ei Hi Px A0.
  split.
  { destruct (Z.eqb_spec L xl), (Z.eqb_spec T xt), (Z.eqb_spec B xb), (Z.eqb_spec R xr); cbn [app]; repeat constructor; lia. }
  assert (CP : forall x1 y1 x2 y2 p, contains_point (Rc (P x1 y1) (P x2 y2)) p = ((x1 <=? px p) && (y1 <=? py p) && ((px p <? x2) && (py p <? y2)))).
  { intros. destruct p. reflexivity. }
  assert (CT : forall p, let l := (if L =? xl then [] else [Rc (P L T) (P xl B)]) ++ (if T =? xt then [] else [Rc (P xl T) (P xr xt)]) ++
    (if B =? xb then [] else [Rc (P xl xb) (P xr B)]) ++ (if R =? xr then [] else [Rc (P xr T) (P R B)]) in
    length (filter (fun a => contains_point a p) l) =
      if (L <=? px p) && (px p <? R) && ((T <=? py p) && (py p <? B)) && negb ((xl <=? px p) && (px p <? xr) && ((xt <=? py p) && (py p <? xb))) then 1%nat else 0%nat).
  { intros [a b]. cbn [px py]. cbn zeta. rewrite !filter_app, !app_length.
    assert (F1 : forall (c : bool) q, length (filter (fun a0 => contains_point a0 (P a b)) (if c then [] else [q])) = if negb c && contains_point q (P a b) then 1%nat else 0%nat).
    { intros [] q; [reflexivity|]. cbn [filter negb andb]. destruct (contains_point q (P a b)); reflexivity. }
    rewrite !F1, !CP. cbn [px py]. clear - BX PX.
    repeat match goal with |- context [if ?c then 1%nat else 0%nat] => let h := fresh in destruct c eqn:h end;
      try reflexivity; exfalso; lia. }
  split.
  - intros p C1 C2. rewrite CT. destruct (proj1 (K p) (conj C1 C2)) as (K1 & K2).
    replace ((L <=? px p) && (px p <? R) && ((T <=? py p) && (py p <? B)) && negb ((xl <=? px p) && (px p <? xr) && ((xt <=? py p) && (py p <? xb)))) with true by lia.
    reflexivity.
  - intros p C. apply length_zero_iff_nil. rewrite CT.
    assert (C' : ~ ((L <= px p < R /\ T <= py p < B) /\ ~ (xl <= px p < xr /\ xt <= py p < xb))) by (intros X; apply C, K, X).
    replace ((L <=? px p) && (px p <? R) && ((T <=? py p) && (py p <? B)) && negb ((xl <=? px p) && (px p <? xr) && ((xt <=? py p) && (py p <? xb)))) with false by lia.
    reflexivity.
Qed.

Lemma contains_ok r s : contains r s = true -> forall p, covers s p -> contains_point r p = true.
Proof. intros H p. rects. lia. Qed.
Lemma contains_inner r s : proper s -> (forall p, covers s p -> contains_point r p = true) -> right s < right r -> bottom s < bottom r -> contains r s = true.
Proof.
  intros Ps H. destruct r as [[x1 y1] [x2 y2]], s as [[x3 y3] [x4 y4]].
  pose proof (H (P x3 y3)) as H3. pose proof (H (P (x4 - 1) (y4 - 1))) as H4. clear H. rects. lia.
Qed.

Lemma within_ok r s : proper r -> proper s -> width r <= width s -> height r <= height s ->
  extent (translated_within r s) = extent r /\ (forall p, covers (translated_within r s) p -> contains_point s p = true).
Proof.
  intros Pr Ps W H. unfold translated_within, amount_within. destruct (contains s r) eqn:C.
  - split; [rects; f_equal; lia|]. intros p Hp. apply (contains_ok s r C). rects. lia.
  - split; [rects; f_equal; lia|]. intros p Hp. rects. lia.
Qed.

Lemma moving r d p q : extent (translate r d) = extent r /\ (covers (translate r d) (shifted (px d) (py d) p) <-> covers r p) /\
  origin (move_to r q) = q /\ extent (move_to r q) = extent r /\ with_extent (origin r) (extent r) = r.
Proof. rects. split; [f_equal; lia|]. split; [lia|]. split; [reflexivity|]. split; [f_equal; lia|]. f_equal. f_equal; lia. Qed.
Lemma expanding r d : inset (expand r d) d = r /\ expand (inset r d) d = r.
Proof. destruct r as [[x1 y1] [x2 y2]], d as [[a b]|[[a b] [c e]]|n]; unfold inset, expand, padd, psub; cbn [origin corner px py]; split; f_equal; f_equal; lia. Qed.
Lemma expanded r n p : 0 <= n -> contains_point (expand r (DNumber n)) p = true <->
  px (origin r) - n <= px p < px (corner r) + n /\ py (origin r) - n <= py p < py (corner r) + n.
Proof. intros N. unfold expand. rects. lia. Qed.
Lemma scaling r s : area (scale r s) = area r * (px s * py s) /\ transpose (transpose (origin r)) = origin r.
Proof. rects. split; [ring|reflexivity]. Qed.
Lemma equal_ok r s : req r s = true <-> r = s.
Proof.
  split; intros H.
  - rects. f_equal; f_equal; lia.
  - subst s. rects. rewrite !Z.eqb_refl. reflexivity.
Qed.

Lemma normalize_ok r : before (corner (normalize r)) (origin (normalize r)) /\ (forall p, covers (normalize r) p <-> covers r p) /\
  normalize (normalize r) = normalize r.
Proof.
  destruct r as [[x1 y1] [x2 y2]]. unfold normalize, before, covers, left, right, top, bottom. cbn [origin corner px py].
  destruct (Z.ltb_spec x1 x2), (Z.ltb_spec y1 y2); cbn [origin corner px py];
    repeat match goal with |- context [?a <? ?b] => destruct (Z.ltb_spec a b); cbn [origin corner px py] in *; try lia end;
    (split; [lia|]; split; [intros [x y]; cbn [px py]; lia|reflexivity]).
Qed.
