(** Lemmas about the scavenger. *)
From Coq Require Import ZArith List Bool Lia ZifyBool ZifyNat Permutation.
From Verif Require Import Base Scav ScavSpec.
Import ListNotations.
Local Open Scope list_scope.
Local Open Scope Z_scope.

Section Proofs.
  Variable shapes : nat -> shape.
  Variable places : nat -> place.
  Variable roots : list word.
  Variable H : Z.
  Variable L : list nat.
  Hypothesis Bef : before places.
  Hypothesis Made : forall o, places o = Young -> well_made H (shapes o) /\ ephemeron (shapes o) = false.
  Let R := reach shapes places roots.
  Hypothesis Fin : forall o, R o -> In o L.
  Hypothesis Few : Z.of_nat (length L) <= H / 2.

  Let sz (o : nat) : Z := Z.of_nat (length (words (shapes o))).

  (** bodies one after another *)
  Fixpoint laid (pl : nat -> place) (m : Z -> word) (a : Z) (l : list nat) (b : Z) : Prop :=
    match l with
    | [] => a = b
    | o :: l' =>
      pl o = At a /\ (forall k w, nth_error (words (shapes o)) k = Some w -> m (a + Z.of_nat k) = w)
      /\ laid pl m (a + sz o) l' b
    end.

  Definition layout (pl : nat -> place) (m : Z -> word) (q : queue) (l : list nat) : Prop :=
    q_max q = H /\ 0 <= q_tenure q /\ 0 <= q_alloc q /\
    if split_queue q
    then exists l1 l2, l = l1 ++ l2 /\ l1 <> [] /\ laid pl m (q_tenure q) l1 (q_top q)
         /\ laid pl m 0 l2 (q_alloc q) /\ q_alloc q <= q_tenure q /\ q_top q <= H
    else laid pl m (q_tenure q) l (q_alloc q) /\ q_alloc q <= H /\ (l = [] -> q_alloc q = 0).

  Definition young_ok (o : nat) : Prop := places o = Young.

  Lemma sz_pos o : places o = Young -> 2 <= sz o <= H.
  Proof. intros Y. destruct (Made o Y) as ((_ & A & B & C) & _). unfold sz. lia. Qed.

  Lemma laid_le pl m a l b : (forall o, In o l -> places o = Young) -> laid pl m a l b ->
    a + 2 * Z.of_nat (length l) <= b.
  Proof.
    revert a. induction l as [|o l IH]; intros a Y E; cbn in E; [cbn; lia|].
    destruct E as (_ & _ & E). apply IH in E; [|intros; apply Y; right; auto].
    pose proof (sz_pos o (Y o (or_introl eq_refl))). cbn [length]. lia.
  Qed.

  Lemma laid_app pl m a l1 l2 b :
    laid pl m a (l1 ++ l2) b <-> exists c, laid pl m a l1 c /\ laid pl m c l2 b.
  Proof.
    revert a. induction l1 as [|o l1 IH]; intros a; cbn.
    - split; [eauto|intros (c & -> & E); auto].
    - rewrite IH. split.
      + intros (A & B & c & C & D). exists c. auto.
      + intros (c & (A & B & C) & D). eauto.
  Qed.

  Lemma laid_place pl pl' m a l b : (forall o, In o l -> pl' o = pl o) ->
    laid pl m a l b -> laid pl' m a l b.
  Proof.
    revert a. induction l as [|o l IH]; intros a Eq; cbn; [auto|].
    intros (A & B & C). split; [rewrite Eq; auto; left; auto|]. split; [auto|].
    apply IH; [intros; apply Eq; right; auto|auto].
  Qed.

  Lemma laid_mem pl m m' a l b : (forall o, In o l -> places o = Young) ->
    (forall x, a <= x < b -> m' x = m x) ->
    laid pl m a l b -> laid pl m' a l b.
  Proof.
    revert a. induction l as [|o l IH]; intros a Y Eq; cbn; [auto|].
    intros (A & B & C). pose proof (laid_le _ _ _ _ _ (fun x Hx => Y x (or_intror Hx)) C).
    pose proof (sz_pos o (Y o (or_introl eq_refl))). split; [auto|]. split.
    - intros k w N. rewrite Eq; [auto|]. assert (k < length (words (shapes o)))%nat
        by (apply nth_error_Some; congruence). unfold sz in *. lia.
    - apply IH; [intros; apply Y; right; auto| |auto]. intros x Hx. apply Eq. lia.
  Qed.

  Lemma laid_at pl m a l b o : (forall o, In o l -> places o = Young) -> laid pl m a l b -> In o l ->
    exists c, pl o = At c /\ a <= c /\ c + sz o <= b
      /\ (forall k w, nth_error (words (shapes o)) k = Some w -> m (c + Z.of_nat k) = w).
  Proof.
    revert a. induction l as [|x l IH]; intros a Y E I; cbn in *; [contradiction|].
    destruct E as (A & B & C). assert (Y' : forall o, In o l -> places o = Young) by (intros; apply Y; auto).
    pose proof (laid_le _ _ _ _ _ Y' C). pose proof (sz_pos x (Y x (or_introl eq_refl))).
    destruct I as [->|I].
    - exists a. split; [auto|]. split; [lia|]. split; [lia|auto].
    - destruct (IH _ Y' C I) as (c & D1 & D2 & D3 & D4). exists c. split; [auto|]. split; [lia|]. auto.
  Qed.

  Lemma laid_apart pl m a l b o o' : (forall o, In o l -> places o = Young) -> NoDup l ->
    laid pl m a l b -> In o l -> In o' l -> o <> o' ->
    exists c c', pl o = At c /\ pl o' = At c' /\ (c + sz o <= c' \/ c' + sz o' <= c).
  Proof.
    revert a. induction l as [|x l IH]; intros a Y N E I I' D; [contradiction|].
    assert (Y' : forall o, In o l -> places o = Young) by (intros; apply Y; right; auto).
    apply NoDup_cons_iff in N. destruct N as [N1 N2]. destruct E as (A & B & C).
    destruct I as [->|I], I' as [->|I'].
    - congruence.
    - destruct (laid_at _ _ _ _ _ _ Y' C I') as (c & D1 & D2 & _). exists a, c. split; [auto|]. split; [auto|]. left. lia.
    - destruct (laid_at _ _ _ _ _ _ Y' C I) as (c & D1 & D2 & _). exists c, a. split; [auto|]. split; [auto|]. right. lia.
    - eapply IH; eauto.
  Qed.

  Definition copied_in (pl : nat -> place) (w : word) : Prop :=
    match w with WInt _ => True | WOop o => pl o <> Young end.

  Lemma copied_iff s w : copied s w = true <-> copied_in (place_of s) w.
  Proof. destruct w as [z|o]; cbn; [tauto|]. destruct (place_of s o); split; congruence. Qed.

  Definition settled (s : st) (o : nat) : Prop :=
    forall w, In w (fields (shapes o)) -> copied_in (place_of s) w.

  Definition grey_ok (dn : list nat) (e : nat * (base * Z) * nat) : Prop :=
    match e with (o, (b, i), n) => b = InOld o /\ i = 1 /\ n = scanned (shapes o) /\ In o dn end.

  Definition greyed (s : st) (o : nat) : Prop := exists e, In e (grey s) /\ fst (fst e) = o.

  (** dn: tenured; lv: in the survivor space; w: in the queue but not yet copied;
      x: the object whose fields are being looked at *)
  Record inv (s : st) (dn lv w : list nat) (x : option nat) : Prop := {
    i_nodup : NoDup (dn ++ lv ++ w);
    i_reach : forall o, In o (dn ++ lv ++ w) -> R o;
    i_old : forall o, places o = Old -> place_of s o = Old;
    i_dn : forall o, In o dn -> place_of s o = Tenured (words (shapes o));
    i_young : forall o, places o = Young -> ~ In o (dn ++ lv) -> place_of s o = Young;
    i_half : layout (place_of s) (mem s) (half s) lv;
    i_tq : tq s = Queue (Z.of_nat (length dn)) (Z.of_nat (length (dn ++ lv ++ w)))
                    (Z.of_nat (length (dn ++ lv ++ w))) (H / 2);
    i_slot : forall i o, nth_error (dn ++ lv ++ w) i = Some o -> slot s (Z.of_nat i) = o;
    i_at : 0 <= queue_at s <= Z.of_nat (length (dn ++ lv ++ w));
    i_pend : forall i o, nth_error (dn ++ lv ++ w) i = Some o -> Some o <> x ->
      queue_at s <= Z.of_nat i \/ greyed s o \/ settled s o;
    i_grey : Forall (grey_ok dn) (grey s);
    i_mourn : mourned s = [];
    i_cur : forall c, x = Some c -> current s = Some c /\ In c (dn ++ lv)
              /\ where_is s c = Ok (at_ s)
  }.

  Lemma R_young o : R o -> places o = Young.
  Proof. intros []; auto. Qed.

  Lemma inv_few s dn lv w x : inv s dn lv w x -> (length (dn ++ lv ++ w) <= length L)%nat.
  Proof.
    intros I. apply NoDup_incl_length; [eapply i_nodup; eauto|].
    intros o Ho. apply Fin. eapply i_reach; eauto.
  Qed.

  Lemma lv_young s dn lv w x : inv s dn lv w x -> forall o, In o lv -> places o = Young.
  Proof. intros I o Ho. apply R_young. eapply i_reach; eauto. rewrite !in_app_iff. auto. Qed.

  (** objects in the survivor space *)
  Lemma lv_at s dn lv w x o : inv s dn lv w x -> In o lv ->
    exists a, place_of s o = At a
      /\ (forall k v, nth_error (words (shapes o)) k = Some v -> mem s (a + Z.of_nat k) = v).
  Proof.
    intros I Ho. pose proof (lv_young _ _ _ _ _ I) as Y. destruct (i_half _ _ _ _ _ I) as (_ & _ & _ & G).
    destruct (split_queue (half s)).
    - destruct G as (l1 & l2 & -> & _ & G1 & G2 & _). apply in_app_iff in Ho. destruct Ho as [Ho|Ho].
      + destruct (laid_at _ _ _ _ _ o (fun y Hy => Y y (proj2 (in_app_iff _ _ _) (or_introl Hy))) G1 Ho) as (c & A & _ & _ & B). eauto.
      + destruct (laid_at _ _ _ _ _ o (fun y Hy => Y y (proj2 (in_app_iff _ _ _) (or_intror Hy))) G2 Ho) as (c & A & _ & _ & B). eauto.
    - destruct G as (G1 & _). destruct (laid_at _ _ _ _ _ o Y G1 Ho) as (c & A & _ & _ & B). eauto.
  Qed.

  Lemma NoDup_app_l {A} (l l' : list A) : NoDup (l ++ l') -> NoDup l.
  Proof.
    induction l as [|y l IH]; intros N; [constructor|]. cbn in N. apply NoDup_cons_iff in N. destruct N as [N1 N2].
    constructor; auto. intros C. apply N1, in_app_iff. auto.
  Qed.
  Lemma NoDup_app_r {A} (l l' : list A) : NoDup (l ++ l') -> NoDup l'.
  Proof. induction l; cbn; auto. intros N. apply NoDup_cons_iff in N. tauto. Qed.

  Lemma nth_error_same {A} (l l' : list A) : (forall k, nth_error l k = nth_error l' k) -> l = l'.
  Proof.
    revert l'. induction l as [|x l IH]; intros [|y l'] E; auto; try (specialize (E 0%nat); discriminate).
    f_equal; [specialize (E 0%nat); cbn in E; congruence|]. apply IH. intros k. exact (E (S k)).
  Qed.

  Lemma chunk_words m a o : (forall k v, nth_error (words (shapes o)) k = Some v -> m (a + Z.of_nat k) = v) ->
    chunk m a (length (words (shapes o))) = words (shapes o).
  Proof.
    intros E. unfold chunk. apply nth_error_same. intros k.
    destruct (Nat.lt_ge_cases k (length (words (shapes o)))) as [C|C].
    - rewrite nth_error_map, (nth_error_nth' _ 0%nat) by (rewrite seq_length; auto).
      rewrite seq_nth by auto. cbn [option_map Nat.add].
      destruct (nth_error (words (shapes o)) k) eqn:N; [|apply nth_error_None in N; lia].
      f_equal. apply E. auto.
    - rewrite (proj2 (nth_error_None _ _)) by (rewrite map_length, seq_length; auto).
      symmetry. apply nth_error_None. auto.
  Qed.

  Lemma copied_place s dn lv w x o : inv s dn lv w x -> places o = Young ->
    (place_of s o <> Young <-> In o (dn ++ lv)).
  Proof.
    intros I Y. split.
    - intros N. destruct (in_dec Nat.eq_dec o (dn ++ lv)) as [|C]; auto.
      exfalso. apply N. eapply i_young; eauto.
    - intros Ho. apply in_app_iff in Ho. destruct Ho as [Ho|Ho].
      + rewrite (i_dn _ _ _ _ _ I o Ho). discriminate.
      + destruct (lv_at _ _ _ _ _ _ I Ho) as (a & -> & _). discriminate.
  Qed.

  Lemma size_young o : places o = Young -> hd_error (words (shapes o)) = Some (WInt (sz o)).
  Proof. intros Y. apply (Made o Y). Qed.

  (** getting from the survivor space *)
  Lemma get_layout pl pl' m q o lv : (forall y, In y (o :: lv) -> places y = Young) ->
    (forall y, In y lv -> pl' y = pl y) ->
    layout pl m q (o :: lv) -> split_queue q = true ->
    layout pl' m (queue_get q (sz o)) lv.
  Proof.
    intros Y Eq (A & B & C & G) Sp. rewrite Sp in G.
    destruct G as (l1 & l2 & E & N & G1 & G2 & G3 & G4).
    destruct l1 as [|y l1]; [congruence|]. injection E as <- ->. cbn in G1. destruct G1 as (P & M & G1).
    assert (Y1 : forall y, In y l1 -> places y = Young) by (intros; apply Y; right; apply in_app_iff; auto).
    assert (Y2 : forall y, In y l2 -> places y = Young) by (intros; apply Y; right; apply in_app_iff; auto).
    pose proof (laid_le _ _ _ _ _ Y1 G1) as Le1. pose proof (laid_le _ _ _ _ _ Y2 G2) as Le2.
    pose proof (sz_pos o (Y o (or_introl eq_refl))) as So.
    assert (G1' : laid pl' m (q_tenure q + sz o) l1 (q_top q))
      by (eapply laid_place; [|exact G1]; intros; apply Eq, in_app_iff; auto).
    assert (G2' : laid pl' m 0 l2 (q_alloc q))
      by (eapply laid_place; [|exact G2]; intros; apply Eq, in_app_iff; auto).
    unfold queue_get. destruct (q_tenure q + sz o =? q_top q) eqn:T.
    - assert (l1 = []) as -> by (destruct l1; auto; cbn [length] in Le1; lia). cbn [app].
      unfold layout, split_queue. cbn [q_max q_tenure q_alloc q_top]. rewrite Z.eqb_refl. cbn [negb].
      split; [auto|]. split; [lia|]. split; [lia|]. split; [auto|]. split; [lia|].
      intros ->. cbn in G2'. lia.
    - unfold layout, split_queue in *. cbn [q_max q_tenure q_alloc q_top]. rewrite Sp.
      split; [auto|]. split; [lia|]. split; [auto|].
      exists l1, l2. split; [auto|]. split; [intros ->; cbn in G1'; lia|]. split; [auto|]. split; [auto|]. lia.
  Qed.

  (** what a step may do: more objects are copied, some are tenured, and of these
      some are greyed *)
  Record ext (s s' : st) (dn lv dn' lv' : list nat) : Prop := {
    e_log : exists more, dn' ++ lv' = dn ++ lv ++ more;
    e_grey : exists ng, grey s' = grey s ++ ng /\ (length ng + length dn <= length dn')%nat;
    e_dn : exists t, dn' = dn ++ t;
    e_at : queue_at s <= queue_at s'
  }.

  Lemma ext_refl s dn lv : ext s s dn lv dn lv.
  Proof. split; [exists []|exists []|exists []|]; rewrite ?app_nil_r; auto. lia. Qed.

  Lemma ext_trans s s1 s2 dn lv dn1 lv1 dn2 lv2 :
    ext s s1 dn lv dn1 lv1 -> ext s1 s2 dn1 lv1 dn2 lv2 -> ext s s2 dn lv dn2 lv2.
  Proof.
    intros [[m A] [g [B C]] [t D] Q1] [[m' A'] [g' [B' C']] [t' D'] Q2]. split.
    - exists (m ++ m'). rewrite A'. rewrite app_assoc, A, <- !app_assoc. auto.
    - exists (g ++ g'). rewrite B', B, app_assoc. split; auto. rewrite app_length. lia.
    - exists (t ++ t'). rewrite D', D, app_assoc. auto.
    - lia.
  Qed.

  Lemma nth_error_mid {A} (l : list A) x r : nth_error (l ++ x :: r) (length l) = Some x.
  Proof. rewrite nth_error_app2, Nat.sub_diag by lia. reflexivity. Qed.

  Lemma settled_mono s s' o : (forall y, place_of s y <> Young -> place_of s' y <> Young) ->
    settled s o -> settled s' o.
  Proof. intros M E v Hv. specialize (E v Hv). destruct v; cbn in *; auto. Qed.

  (** one object is tenured *)
  Lemma tenure_one_inv s dn o lv w x : inv s dn (o :: lv) w x -> (lv ++ w) <> [] ->
    split_queue (half s) = true ->
    exists s', tenure_one shapes s = Ok s' /\ inv s' (dn ++ [o]) lv w x
      /\ ext s s' dn (o :: lv) (dn ++ [o]) lv
      /\ half s' = queue_get (half s) (sz o) /\ mem s' = mem s.
  Proof.
    intros I NE Sp.
    assert (Yo : places o = Young) by (eapply lv_young; [exact I|left; auto]).
    destruct (lv_at _ _ _ _ _ o I (or_introl eq_refl)) as (a & Po & Mo).
    assert (Slot : slot s (q_tenure (tq s)) = o).
    { rewrite (i_tq _ _ _ _ _ I). cbn [q_tenure]. eapply i_slot; [exact I|]. apply nth_error_mid. }
    pose proof (size_young o Yo) as Hd.
    assert (M0 : mem s a = WInt (sz o)).
    { rewrite <- (Mo 0%nat (WInt (sz o))); [f_equal; lia|].
      destruct (words (shapes o)); cbn in *; congruence. }
    assert (Ten : forall s0, place_of s0 = place_of s -> mem s0 = mem s ->
              tenure shapes s0 o = Ok (set_place s0 o (Tenured (words (shapes o))))).
    { intros s0 E1 E2. unfold tenure, size_of. rewrite !E1, !Po, !E2, M0. cbn [obind].
      unfold sz. rewrite Nat2Z.id, chunk_words; auto. }
    set (pl' := fun y => if Nat.eqb y o then Tenured (words (shapes o)) else place_of s y).
    assert (Pl : forall y, y <> o -> pl' y = place_of s y).
    { intros y Hy. unfold pl'. destruct (Nat.eqb_spec y o); congruence. }
    assert (Plo : pl' o = Tenured (words (shapes o))) by (unfold pl'; rewrite Nat.eqb_refl; auto).
    pose proof (i_nodup _ _ _ _ _ I) as ND.
    assert (NDo : ~ In o (dn ++ lv ++ w)) by (apply NoDup_remove_2; exact ND).
    assert (Log : (dn ++ [o]) ++ lv ++ w = dn ++ (o :: lv) ++ w) by (rewrite <- app_assoc; auto).
    assert (LenD : length (dn ++ [o]) = S (length dn)) by (rewrite app_length; cbn; lia).
    assert (Tq : queue_get (tq s) 1 = Queue (Z.of_nat (length (dn ++ [o]))) (Z.of_nat (length ((dn ++ [o]) ++ lv ++ w)))
                    (Z.of_nat (length ((dn ++ [o]) ++ lv ++ w))) (H / 2)).
    { rewrite (i_tq _ _ _ _ _ I), LenD, Log. unfold queue_get. cbn [q_tenure q_alloc q_top q_max].
      assert (0 < length (lv ++ w))%nat by (destruct (lv ++ w); cbn; [congruence|lia]).
      rewrite !app_length in *. cbn [length].
      match goal with |- context [?u =? ?v] => destruct (Z.eqb_spec u v); [lia|] end. f_equal; lia. }
    assert (SpT : split_queue (tq s) = false) by (rewrite (i_tq _ _ _ _ _ I); unfold split_queue; cbn; rewrite Z.eqb_refl; auto).
    assert (Done : forall cur at0 p g, 
       (forall c, x = Some c -> cur = Some c /\ (c = o -> at0 = InOld o) /\ (c <> o -> where_is s c = Ok at0)) ->
       queue_at s <= p <= Z.of_nat (length (dn ++ (o :: lv) ++ w)) ->
       (exists ng, g = grey s ++ ng /\ Forall (grey_ok (dn ++ [o])) ng /\ (length ng <= 1)%nat
            /\ (p = queue_at s \/ (p = queue_at s + 1 /\ queue_at s = Z.of_nat (length dn) /\ exists e, In e ng /\ fst (fst e) = o))) ->
       let s' := St pl' (queue_get (half s) (sz o)) (mem s) (queue_get (tq s) 1) (slot s) p cur at0 g (mourned s) in
       inv s' (dn ++ [o]) lv w x /\ ext s s' dn (o :: lv) (dn ++ [o]) lv).
    { intros cur at0 p g Hx Hp (ng & -> & Fg & Lg & Hg) s'. split.
      - split; subst s'; cbn [place_of half mem tq slot queue_at current at_ grey mourned].
        + rewrite Log. exact ND.
        + rewrite Log. apply (i_reach _ _ _ _ _ I).
        + intros y Hy. rewrite Pl by (intros ->; congruence). eapply i_old; eauto.
        + intros y Hy. apply in_app_iff in Hy. destruct Hy as [Hy|[<-|[]]]; [|auto].
          rewrite Pl; [eapply i_dn; eauto|]. intros ->. apply NDo. apply in_app_iff. auto.
        + intros y Hy Ny. assert (y <> o) by (intros ->; apply Ny; rewrite !in_app_iff; cbn; auto).
          rewrite Pl by auto. eapply i_young; eauto. intros C. apply Ny. rewrite !in_app_iff in *. cbn in *. intuition.
        + eapply get_layout; [|intros y Hy; apply Pl|exact (i_half _ _ _ _ _ I)|exact Sp].
          * eapply lv_young; eauto.
          * intros ->. apply NDo. rewrite !in_app_iff. auto.
        + exact Tq.
        + rewrite Log. apply (i_slot _ _ _ _ _ I).
        + pose proof (i_at _ _ _ _ _ I). rewrite Log. lia.
        + rewrite Log. intros i y Hy Hx'. 
          assert (Mono : forall z, place_of s z <> Young -> pl' z <> Young).
          { intros z Hz. destruct (Nat.eq_dec z o) as [->|]; [rewrite Plo; discriminate|rewrite Pl; auto]. }
          destruct (i_pend _ _ _ _ _ I i y Hy Hx') as [P|[P|P]].
          * destruct Hg as [->|(-> & Eq & e & He & Ho)]; [left; auto|].
            destruct (Z.eq_dec (Z.of_nat i) (queue_at s)) as [Ei|]; [|left; lia].
            assert (i = length dn) as -> by lia. cbn [app] in Hy. rewrite nth_error_mid in Hy. injection Hy as <-.
            right; left. exists e. cbn. split; auto. apply in_app_iff. auto.
          * right; left. destruct P as (e & P1 & P2). exists e. split; auto. cbn. apply in_app_iff. auto.
          * right; right. eapply settled_mono; [|exact P]. exact Mono.
        + apply Forall_app. split; [|exact Fg].
          eapply Forall_impl; [|exact (i_grey _ _ _ _ _ I)]. intros [[z [b i]] n] (Q1 & Q2 & Q3 & Q4).
          cbn. rewrite in_app_iff. auto.
        + apply (i_mourn _ _ _ _ _ I).
        + intros c Hc. destruct (Hx c Hc) as (X1 & X2 & X3). split; [auto|].
          destruct (i_cur _ _ _ _ _ I c Hc) as (_ & In_c & _).
          split; [rewrite !in_app_iff in *; cbn in *; intuition|].
          unfold where_is in *. cbn [place_of]. destruct (Nat.eq_dec c o) as [->|D].
          * rewrite Plo. rewrite (X2 eq_refl). auto.
          * rewrite Pl by auto. auto.
      - split; subst s'; cbn [grey].
        + exists []. rewrite <- app_assoc, app_nil_r. auto.
        + exists ng. split; [auto|]. rewrite LenD. lia.
        + exists [o]. auto.
        + cbn. lia. }
    assert (Szo : forall h m t sl p c b g mo, size_of shapes (St pl' h m t sl p c b g mo) o = Ok (sz o)).
    { intros. unfold size_of. cbn [place_of]. rewrite Plo, Hd. auto. }
    unfold tenure_one. rewrite Slot.
    destruct (match current s with Some y => Nat.eqb y o | None => false end) eqn:Cur.
    - rewrite (Ten s eq_refl eq_refl). cbn [obind].
      change (place_of (set_place s o (Tenured (words (shapes o))))) with pl'.
      unfold where_is at 1. change (place_of (set_place s o (Tenured (words (shapes o))))) with pl'. rewrite Plo.
      cbn [obind]. unfold set_tq, set_at, set_place, set_half. cbn [place_of half mem tq slot queue_at current at_ grey mourned].
      fold pl'. rewrite Szo. cbn [obind]. eexists. split; [reflexivity|].
      match goal with |- inv ?st _ _ _ _ /\ _ => destruct (Done (current s) (InOld o) (queue_at s) (grey s)) as [D1 D2] end.
      + intros c Hc. destruct (i_cur _ _ _ _ _ I c Hc) as (X1 & X2 & X3). split; auto. split; auto.
        intros Dc. rewrite X1 in Cur. apply Nat.eqb_eq in Cur. congruence.
      + pose proof (i_at _ _ _ _ _ I). lia.
      + exists []. rewrite app_nil_r. auto 10.
      + split; [exact D1|]. split; [exact D2|]. split; reflexivity.
    - assert (Hcur : forall c, x = Some c -> c <> o).
      { intros c Hc ->. destruct (i_cur _ _ _ _ _ I o Hc) as (X1 & _). rewrite X1, Nat.eqb_refl in Cur. discriminate. }
      assert (Hcur' : forall c, x = Some c -> current s = Some c /\ (c = o -> at_ s = InOld o) /\ (c <> o -> where_is s c = Ok (at_ s))).
      { intros c Hc. destruct (i_cur _ _ _ _ _ I c Hc) as (X1 & X2 & X3). split; auto. split; auto.
        intros ->. exfalso. eapply Hcur; eauto. }
      destruct (queue_at s =? q_tenure (tq s)) eqn:Q.
      + rewrite SpT, andb_false_r.
        rewrite Ten by reflexivity. cbn [obind]. unfold add_grey.
        destruct (Made o Yo) as ((_ & S1 & _) & Ep). rewrite Ep.
        destruct (Nat.eqb_spec (scanned (shapes o)) 0); [lia|].
        unfold where_is at 1. unfold set_scan, set_place at 1. cbn [place_of]. fold pl'. rewrite Nat.eqb_refl. cbn [obind].
        unfold set_tq, set_at, set_grey, set_place, set_half. cbn [place_of half mem tq slot queue_at current at_ grey mourned].
        fold pl'. rewrite Szo. cbn [obind]. eexists. split; [reflexivity|].
        rewrite (i_tq _ _ _ _ _ I) in Q. cbn [q_tenure] in Q.
        match goal with |- inv (St _ _ _ _ _ ?p _ _ ?g _) _ _ _ _ /\ _ => destruct (Done (current s) (at_ s) p g) as [D1 D2] end.
        * auto.
        * pose proof (i_at _ _ _ _ _ I). rewrite !app_length. cbn [length]. lia.
        * eexists. split; [reflexivity|]. split; [|split; [cbn; lia|]].
          -- constructor; [|constructor]. cbn. rewrite in_app_iff. cbn. auto 10.
          -- right. split; [auto|]. split; [lia|]. eexists. split; [left; reflexivity|reflexivity].
        * split; [exact D1|]. split; [exact D2|]. split; reflexivity.
      + rewrite Ten by reflexivity. cbn [obind].
        unfold set_tq, set_at, set_grey, set_place, set_half. cbn [place_of half mem tq slot queue_at current at_ grey mourned].
        fold pl'. rewrite Szo. cbn [obind]. eexists. split; [reflexivity|].
        destruct (Done (current s) (at_ s) (queue_at s) (grey s)) as [D1 D2].
        * auto.
        * pose proof (i_at _ _ _ _ _ I). lia.
        * exists []. rewrite app_nil_r. auto 10.
        * split; [exact D1|]. split; [exact D2|]. split; reflexivity.
  Qed.

  Lemma inv_set_half s dn lv w x q : inv s dn lv w x -> layout (place_of s) (mem s) q lv ->
    inv (set_half s q) dn lv w x.
  Proof. intros [] E. split; auto. Qed.

  Lemma room_half_inv n w x : w <> [] -> 0 < n <= H -> forall k s dn lv, inv s dn lv w x ->
    (2 * length lv + (if split_queue (half s) then 0 else 1) < k)%nat ->
    exists s' dn' lv', room_half shapes k n s = Ok s' /\ inv s' dn' lv' w x
      /\ ext s s' dn lv dn' lv' /\ dn' ++ lv' = dn ++ lv
      /\ q_alloc (half s') + n <= H
      /\ (split_queue (half s') = true -> q_alloc (half s') + n <= q_tenure (half s')).
  Proof.
    intros Nw Hn. induction k as [|k IH]; intros s dn lv I F; [lia|]. cbn [room_half].
    destruct (i_half _ _ _ _ _ I) as (Mx & T0 & A0 & G).
    destruct (split_queue (half s)) eqn:Sp; cbn [andb].
    - destruct G as (l1 & l2 & E & N1 & G1 & G2 & G3 & G4).
      assert (Y1 : forall y, In y l1 -> places y = Young)
        by (intros y Hy; eapply lv_young; [exact I|]; rewrite E; apply in_app_iff; auto).
      pose proof (laid_le _ _ _ _ _ Y1 G1) as Le1.
      destruct (q_tenure (half s) <? q_alloc (half s) + n) eqn:C.
      + destruct lv as [|o lv]; [destruct l1; [congruence|discriminate]|].
        destruct (tenure_one_inv _ _ _ _ _ _ I) as (s1 & T & I1 & X1 & Hh & Hm);
          [destruct lv; cbn; congruence|exact Sp|].
        rewrite T. cbn [obind].
        destruct (IH s1 (dn ++ [o]) lv I1) as (s' & dn' & lv' & R' & I' & X' & L' & C1 & C2).
        { cbn [length] in F. destruct (split_queue (half s1)); lia. }
        exists s', dn', lv'. split; [exact R'|]. split; [exact I'|]. split; [eapply ext_trans; eauto|].
        split; [rewrite L', <- app_assoc; auto|]. auto.
      + destruct (q_max (half s) <? q_alloc (half s) + n) eqn:C'; [lia|].
        exists s, dn, lv. split; [auto|]. split; [auto|]. split; [apply ext_refl|]. split; [auto|]. split; [lia|]. lia.
    - destruct G as (G1 & G2 & G3).
      destruct (q_max (half s) <? q_alloc (half s) + n) eqn:C'.
      + assert (NE : lv <> []) by (intros ->; specialize (G3 eq_refl); lia).
        assert (Y1 : forall y, In y lv -> places y = Young) by (eapply lv_young; exact I).
        pose proof (laid_le _ _ _ _ _ Y1 G1) as Le1.
        assert (0 < length lv)%nat by (destruct lv; cbn; [congruence|lia]).
        assert (Sp' : split_queue (Queue (q_tenure (half s)) 0 (q_alloc (half s)) (q_max (half s))) = true)
          by (unfold split_queue; cbn; lia).
        edestruct (IH (set_half s (Queue (q_tenure (half s)) 0 (q_alloc (half s)) (q_max (half s)))) dn lv)
          as (s' & dn' & lv' & R' & I' & X' & L' & C1 & C2).
        * apply inv_set_half; [exact I|]. unfold layout. cbn [q_max q_tenure q_alloc q_top].
          split; [auto|]. split; [auto|]. split; [lia|]. rewrite Sp'.
          exists lv, []. rewrite app_nil_r. split; [auto|]. split; [auto|]. split; [auto|]. split; [reflexivity|]. lia.
        * cbn [half set_half]. rewrite Sp'. lia.
        * exists s', dn', lv'. split; [exact R'|]. split; [exact I'|]. split; [|auto].
          destruct X' as [X1 X2 X3 X4]. split; auto.
      + exists s, dn, lv. split; [auto|]. split; [auto|]. split; [apply ext_refl|]. split; [auto|]. split; [lia|]. congruence.
  Qed.

  Lemma store_in m a l k v : nth_error l k = Some v -> store m a l (a + Z.of_nat k) = v.
  Proof.
    intros E. unfold store. assert (k < length l)%nat by (apply nth_error_Some; congruence).
    destruct ((a <=? a + Z.of_nat k) && (a + Z.of_nat k <? a + Z.of_nat (length l))) eqn:C; [|lia].
    replace (Z.to_nat (a + Z.of_nat k - a)) with k by lia. apply nth_error_nth; auto.
  Qed.
  Lemma store_out m a l x : x < a \/ a + Z.of_nat (length l) <= x -> store m a l x = m x.
  Proof.
    intros E. unfold store. destruct ((a <=? x) && (x <? a + Z.of_nat (length l))) eqn:C; auto. lia.
  Qed.

  (** the body of the object that waits is copied *)
  Lemma placed s dn lv o x : inv s dn lv [o] x ->
    q_alloc (half s) + sz o <= H ->
    (split_queue (half s) = true -> q_alloc (half s) + sz o <= q_tenure (half s)) ->
    let a := q_alloc (half s) in
    let s' := set_place (set_mem (set_half s (queue_take (half s) (sz o)))
                (store (mem s) a (words (shapes o)))) o (At a) in
    inv s' dn (lv ++ [o]) [] x /\ ext s s' dn lv dn (lv ++ [o]).
  Proof.
    intros I C1 C2 a s'.
    pose proof (i_nodup _ _ _ _ _ I) as ND.
    assert (ND1 : ~ In o (dn ++ lv)).
    { rewrite app_assoc in ND. apply NoDup_remove_2 in ND. rewrite app_nil_r in ND. auto. }
    assert (Ro : R o) by (eapply i_reach; [exact I|]; rewrite !in_app_iff; cbn; auto).
    pose proof (R_young o Ro) as Yo. pose proof (sz_pos o Yo) as So.
    assert (Pl : forall y, y <> o -> place_of s' y = place_of s y).
    { intros y Hy. cbn. destruct (Nat.eqb_spec y o); congruence. }
    assert (Plo : place_of s' o = At a) by (cbn; rewrite Nat.eqb_refl; auto).
    assert (Log : dn ++ (lv ++ [o]) ++ [] = dn ++ lv ++ [o]) by (rewrite app_nil_r; auto).
    assert (Mono : forall y, place_of s y <> Young -> place_of s' y <> Young).
    { intros y Hy. destruct (Nat.eq_dec y o) as [->|D]; [rewrite Plo; discriminate|rewrite Pl; auto]. }
    split.
    - split.
      + rewrite Log. exact ND.
      + rewrite Log. apply (i_reach _ _ _ _ _ I).
      + intros y Hy. rewrite Pl by congruence. eapply i_old; eauto.
      + intros y Hy. rewrite Pl; [eapply i_dn; eauto|]. intros ->. apply ND1, in_app_iff. auto.
      + intros y Hy Ny. rewrite Pl; [eapply i_young; eauto|].
        * intros C. apply Ny. rewrite !in_app_iff in *. tauto.
        * intros ->. apply Ny. rewrite !in_app_iff. cbn. auto.
      + pose proof (lv_young _ _ _ _ _ I) as Yl.
        destruct (i_half _ _ _ _ _ I) as (Mx & T0 & A0 & G). cbn [half set_half set_mem set_place s'].
        change (mem s') with (store (mem s) a (words (shapes o))).
        unfold queue_take. unfold layout. cbn [q_max q_tenure q_alloc q_top].
        assert (One : laid (place_of s') (store (mem s) a (words (shapes o))) a [o] (a + sz o)).
        { cbn [laid]. split; [exact Plo|]. split; [|reflexivity]. intros k v. apply store_in. }
        split; [auto|]. split; [auto|]. split; [lia|].
        destruct (split_queue (half s)) eqn:Sp.
        * destruct G as (l1 & l2 & E & N1 & G1 & G2 & G3 & G4). specialize (C2 eq_refl).
          assert (Y1 : forall y, In y l1 -> places y = Young) by (intros; apply Yl; rewrite E; apply in_app_iff; auto).
          assert (Y2 : forall y, In y l2 -> places y = Young) by (intros; apply Yl; rewrite E; apply in_app_iff; auto).
          pose proof (laid_le _ _ _ _ _ Y1 G1) as Le1.
          assert (0 < length l1)%nat by (destruct l1; cbn; [congruence|lia]).
          replace (split_queue _) with true by (unfold split_queue; cbn; lia).
          exists l1, (l2 ++ [o]). split; [rewrite E, app_assoc; auto|]. split; [auto|]. split; [|split; [|lia]].
          -- eapply laid_mem; [exact Y1| |eapply laid_place; [|exact G1]].
             ++ intros y Hy. apply store_out. fold a in C2. unfold sz in *. lia.
             ++ intros y Hy. apply Pl. intros ->. apply ND1. rewrite E, !in_app_iff. auto.
          -- apply laid_app. exists a. split; [|exact One].
             eapply laid_mem; [exact Y2| |eapply laid_place; [|exact G2]].
             ++ intros y Hy. apply store_out. unfold a. lia.
             ++ intros y Hy. apply Pl. intros ->. apply ND1. rewrite E, !in_app_iff. auto.
        * destruct G as (G1 & G2 & G3). replace (split_queue _) with false by (unfold split_queue; cbn; lia).
          split; [|split; [lia|]].
          -- apply laid_app. exists a. split; [|exact One].
             eapply laid_mem; [exact Yl| |eapply laid_place; [|exact G1]].
             ++ intros y Hy. apply store_out. unfold a. lia.
             ++ intros y Hy. apply Pl. intros ->. apply ND1. rewrite !in_app_iff. auto.
          -- intros Em. destruct lv; discriminate.
      + rewrite Log. exact (i_tq _ _ _ _ _ I).
      + rewrite Log. exact (i_slot _ _ _ _ _ I).
      + rewrite Log. exact (i_at _ _ _ _ _ I).
      + rewrite Log. intros i y Hy Hx. destruct (i_pend _ _ _ _ _ I i y Hy Hx) as [P|[P|P]]; auto.
        right; right. eapply settled_mono; [exact Mono|exact P].
      + exact (i_grey _ _ _ _ _ I).
      + exact (i_mourn _ _ _ _ _ I).
      + intros c Hc. destruct (i_cur _ _ _ _ _ I c Hc) as (X1 & X2 & X3).
        split; [auto|]. split; [rewrite !in_app_iff in *; tauto|].
        unfold where_is in *. rewrite Pl; [exact X3|]. intros ->. auto.
    - split.
      + exists [o]. auto.
      + exists []. rewrite app_nil_r. cbn. split; auto.
      + exists []. rewrite app_nil_r. auto.
      + cbn. lia.
  Qed.

  Variable fuel : nat.
  Hypothesis Enough : (2 * length L + 5 <= fuel)%nat.

  (** an object is put on the queue *)
  Lemma put_tq_inv s dn lv o x : inv s dn lv [] x -> R o -> ~ In o (dn ++ lv) ->
    exists s', put_tq shapes fuel o s = Ok s' /\ inv s' dn lv [o] x /\ grey s' = grey s
      /\ queue_at s' = queue_at s.
  Proof.
    intros I Ro No.
    assert (Log : dn ++ lv ++ [] = dn ++ lv) by (rewrite app_nil_r; auto).
    assert (Log' : dn ++ lv ++ [o] = (dn ++ lv) ++ [o]) by (rewrite app_assoc; auto).
    assert (ND : NoDup (dn ++ lv ++ [o])).
    { rewrite Log'. pose proof (i_nodup _ _ _ _ _ I) as N. rewrite Log in N.
      apply NoDup_rev in N. rewrite <- (rev_involutive (_ ++ [o])). apply NoDup_rev. rewrite rev_app_distr. cbn.
      constructor; auto. rewrite <- in_rev. auto. }
    assert (Rl : forall y, In y (dn ++ lv ++ [o]) -> R y).
    { intros y Hy. rewrite Log', in_app_iff in Hy. destruct Hy as [Hy|[<-|[]]]; auto.
      eapply i_reach; [exact I|]. rewrite Log. auto. }
    assert (Ln : (length (dn ++ lv ++ [o]) <= length L)%nat) by (apply NoDup_incl_length; auto; intros y Hy; auto).
    assert (Ln' : length (dn ++ lv ++ [o]) = S (length (dn ++ lv))) by (rewrite Log', app_length; cbn; lia).
    unfold put_tq. pose proof (i_tq _ _ _ _ _ I) as T. rewrite Log in T.
    assert (Rm : room_tq shapes fuel 1 s = Ok s).
    { destruct fuel as [|f]; [lia|]. cbn [room_tq]. rewrite T. unfold split_queue. cbn [q_top q_alloc q_max q_tenure].
      rewrite Z.eqb_refl. cbn [negb andb]. match goal with |- context [if ?b then _ else _] => destruct b eqn:C end; [lia|auto]. }
    rewrite Rm. cbn [obind]. eexists. split; [reflexivity|]. rewrite T.
    assert (Tk : queue_take (Queue (Z.of_nat (length dn)) (Z.of_nat (length (dn ++ lv))) (Z.of_nat (length (dn ++ lv))) (H / 2)) 1
                 = Queue (Z.of_nat (length dn)) (Z.of_nat (length (dn ++ lv ++ [o]))) (Z.of_nat (length (dn ++ lv ++ [o]))) (H / 2)).
    { unfold queue_take, split_queue. cbn [q_top q_alloc q_max q_tenure]. rewrite Z.eqb_refl. cbn [negb]. rewrite Ln'. f_equal; lia. }
    rewrite Tk. cbn [q_alloc]. split; [|split; reflexivity].
    destruct I as [I1 I2 I3 I4 I5 I6 I7 I8 I9 I10 I11 I12 I13]. rewrite ?Log in *.
    split; auto.
    - intros i y Hy. cbn [slot set_slot set_tq]. rewrite Log' in Hy.
      destruct (Nat.lt_ge_cases i (length (dn ++ lv))) as [C|C].
      + rewrite nth_error_app1 in Hy by auto. destruct (Z.of_nat i =? Z.of_nat (length (dn ++ lv))) eqn:D; [lia|]. auto.
      + assert (Hi : (i < length ((dn ++ lv) ++ [o]))%nat) by (apply nth_error_Some; congruence).
        rewrite <- Log', Ln' in Hi. assert (i = length (dn ++ lv)) as -> by lia.
        rewrite nth_error_mid in Hy. rewrite Z.eqb_refl. congruence.
    - cbn [queue_at set_slot set_tq]. lia.
    - intros i y Hy Hx. cbn [queue_at set_slot set_tq]. rewrite Log' in Hy.
      destruct (Nat.lt_ge_cases i (length (dn ++ lv))) as [C|C].
      + rewrite nth_error_app1 in Hy by auto. exact (I10 i y Hy Hx).
      + left. lia.
  Qed.

  Lemma first_young_in s l o : first_young s l = Some o -> In (WOop o) l /\ place_of s o = Young.
  Proof.
    induction l as [|w l IH]; cbn [first_young]; [discriminate|].
    destruct (copied s w) eqn:C; [intros E; apply IH in E; split; [right|]; tauto|].
    destruct w as [z|y]; [discriminate|]. intros [= ->]. split; [left; auto|].
    cbn in C. destruct (place_of s o); congruence.
  Qed.

  Lemma nth_error_firstn_lt {A} (l : list A) n i : (i < n)%nat -> nth_error (firstn n l) i = nth_error l i.
  Proof.
    revert n i. induction l as [|y l IH]; intros [|n] [|i] C; cbn; auto; try lia. apply IH. lia.
  Qed.

  (** a word at its place in an object is one of its fields *)
  Lemma field_in o i v : (i < scanned (shapes o))%nat -> nth_error (words (shapes o)) (S i) = Some v ->
    In v (fields (shapes o)).
  Proof.
    intros C E. unfold fields. apply nth_error_In with (n := i).
    rewrite nth_error_firstn_lt by auto. destruct (words (shapes o)); [discriminate|]. exact E.
  Qed.

  Definition okw (w : word) : Prop := match w with WInt _ => True | WOop o => places o = Young -> R o end.

  Lemma field_ok o v : R o -> In v (fields (shapes o)) -> okw v.
  Proof. intros Ro E. destruct v as [|y]; cbn; auto. intros Y. eapply reach_field; eauto. Qed.

  Lemma young_was s dn lv w x o : inv s dn lv w x -> place_of s o = Young -> places o = Young.
  Proof. intros I E. destruct (Bef o) as [|E']; auto. rewrite (i_old _ _ _ _ _ I o E') in E. discriminate. Qed.

  Lemma copy_chain_inv x : forall k o s dn lv, inv s dn lv [] x -> R o -> ~ In o (dn ++ lv) ->
    (length L < k + length (dn ++ lv))%nat ->
    exists s' dn' lv', copy_chain shapes fuel k o s = Ok s' /\ inv s' dn' lv' [] x
      /\ ext s s' dn lv dn' lv' /\ In o (dn' ++ lv').
  Proof.
    induction k as [|k IH]; intros o s dn lv I Ro No F.
    { exfalso. pose proof (inv_few _ _ _ _ _ I) as C. rewrite app_nil_r in C. lia. }
    cbn [copy_chain]. pose proof (R_young o Ro) as Yo. destruct (Made o Yo) as ((_ & Sc1 & Sc2 & _) & Ep).
    rewrite (i_young _ _ _ _ _ I o Yo No).
    destruct (put_tq_inv _ _ _ _ _ I Ro No) as (s1 & P1 & I1 & Gr1 & At1). rewrite P1. cbn [obind].
    pose proof (inv_few _ _ _ _ _ I1) as Fw. rewrite !app_length in Fw. cbn [length] in Fw.
    unfold put_half.
    destruct (room_half_inv (sz o) [o] x ltac:(discriminate) ltac:(pose proof (sz_pos o Yo); lia) fuel s1 dn lv I1)
      as (s2 & dn2 & lv2 & R2 & I2 & X2 & L2 & C1 & C2).
    { destruct (split_queue (half s1)); lia. }
    unfold sz in R2. rewrite R2. cbn [obind fst snd].
    destruct (placed _ _ _ _ _ I2 C1 C2) as (I3 & X3). rewrite Ep.
    match type of I3 with inv ?t _ _ _ _ => set (s3 := t) in * end.
    fold (sz o). fold s3.
    assert (X02 : ext s s3 dn lv dn2 (lv2 ++ [o])).
    { destruct X2 as [(m & E1) (g & E2 & E2') (t & E3) E5], X3 as [(m' & E1') (g' & E4 & E4') (t' & E3') E6].
      split.
      - exists [o]. rewrite app_assoc, L2, <- app_assoc. auto.
      - exists (g ++ g'). rewrite E4, E2, Gr1, app_assoc. split; auto. rewrite app_length. lia.
      - exists t. auto.
      - fold s3 in E6. lia. }
    destruct (first_young s3 (chunk (mem s3) (q_alloc (half s2) + 2) (scanned (shapes o) - 1))) as [o'|] eqn:Fy.
    - apply first_young_in in Fy. destruct Fy as [In1 Yg].
      assert (Ro' : R o').
      { unfold chunk in In1. apply in_map_iff in In1. destruct In1 as (i & Hi & Hr). apply in_seq in Hr.
        destruct (lv_at _ _ _ _ _ o I3) as (a & Pa & Ma); [rewrite in_app_iff; cbn; auto|].
        assert (a = q_alloc (half s2)) as ->.
        { unfold s3 in Pa. cbn in Pa. rewrite Nat.eqb_refl in Pa. congruence. }
        destruct (nth_error (words (shapes o)) (S (S i))) as [v|] eqn:Nv;
          [|apply nth_error_None in Nv; lia].
        pose proof (Ma _ _ Nv) as Mv.
        replace (q_alloc (half s2) + Z.of_nat (S (S i))) with (q_alloc (half s2) + 2 + Z.of_nat i) in Mv by lia.
        rewrite Mv in Hi. subst v.
        apply (field_ok o (WOop o') Ro); [eapply field_in; [|exact Nv]; lia|].
        eapply young_was; eauto. }
      assert (No' : ~ In o' (dn2 ++ lv2 ++ [o])).
      { intros C. apply (copied_place _ _ _ _ _ o' I3) in C; [congruence|]. eapply R_young; eauto. }
      destruct (IH o' s3 dn2 (lv2 ++ [o]) I3 Ro' No') as (s' & dn' & lv' & R' & I' & X' & In').
      { rewrite app_assoc, app_length, L2. cbn [length]. lia. }
      exists s', dn', lv'. split; [exact R'|]. split; [exact I'|]. split; [eapply ext_trans; eauto|].
      destruct X' as [(m & E1) _ _ _]. rewrite E1. rewrite !in_app_iff. cbn. auto.
    - exists s3, dn2, (lv2 ++ [o]). split; [reflexivity|]. split; [exact I3|]. split; [exact X02|].
      rewrite !in_app_iff. cbn. auto.
  Qed.

  Lemma ext_in s s' dn lv dn' lv' o : ext s s' dn lv dn' lv' -> In o (dn ++ lv) -> In o (dn' ++ lv').
  Proof. intros [(m & E) _ _ _] Ho. rewrite E, app_assoc. apply in_app_iff. auto. Qed.
  Lemma ext_dn s s' dn lv dn' lv' o : ext s s' dn lv dn' lv' -> In o dn -> In o dn'.
  Proof. intros [_ _ (t & ->) _] Ho. apply in_app_iff. auto. Qed.

  Lemma mono s s' dn lv dn' lv' w w' x x' v : inv s dn lv w x -> inv s' dn' lv' w' x' ->
    ext s s' dn lv dn' lv' -> copied_in (place_of s) v -> copied_in (place_of s') v.
  Proof.
    intros I I' X C. destruct v as [z|y]; cbn in *; auto. destruct (Bef y) as [Y|Y].
    - apply (copied_place _ _ _ _ _ _ I' Y). eapply ext_in; [exact X|].
      apply (copied_place _ _ _ _ _ _ I Y). auto.
    - rewrite (i_old _ _ _ _ _ I' y Y). discriminate.
  Qed.

  Lemma maybe_copy_inv s dn lv x v : inv s dn lv [] x -> okw v ->
    exists s' dn' lv', maybe_copy shapes fuel v s = Ok s' /\ inv s' dn' lv' [] x
      /\ ext s s' dn lv dn' lv' /\ copied_in (place_of s') v.
  Proof.
    intros I Ov. unfold maybe_copy. destruct (copied s v) eqn:C.
    - exists s, dn, lv. split; auto. split; auto. split; [apply ext_refl|]. apply copied_iff. auto.
    - destruct v as [z|o]; [discriminate|].
      assert (P : place_of s o = Young) by (cbn in C; destruct (place_of s o); congruence).
      pose proof (young_was _ _ _ _ _ _ I P) as Y. pose proof (Ov Y) as Ro.
      assert (No : ~ In o (dn ++ lv)) by (intros D; apply (copied_place _ _ _ _ _ _ I Y) in D; congruence).
      destruct (copy_chain_inv x fuel o s dn lv I Ro No ltac:(lia)) as (s' & dn' & lv' & E & I' & X & D).
      exists s', dn', lv'. split; auto. split; auto. split; auto. cbn.
      apply (copied_place _ _ _ _ _ _ I' Y). auto.
  Qed.

  Lemma copy_words_inv x l : Forall okw l -> forall s dn lv, inv s dn lv [] x ->
    exists s' dn' lv', copy_words shapes fuel l s = Ok s' /\ inv s' dn' lv' [] x
      /\ ext s s' dn lv dn' lv' /\ Forall (copied_in (place_of s')) l.
  Proof.
    induction 1 as [|v l Ov Ol IH]; intros s dn lv I; cbn [copy_words].
    - exists s, dn, lv. split; auto. split; auto. split; [apply ext_refl|]. auto.
    - destruct (maybe_copy_inv _ _ _ _ v I Ov) as (s1 & dn1 & lv1 & E1 & I1 & X1 & C1). rewrite E1. cbn [obind].
      destruct (IH s1 dn1 lv1 I1) as (s2 & dn2 & lv2 & E2 & I2 & X2 & C2).
      exists s2, dn2, lv2. split; auto. split; auto. split; [eapply ext_trans; eauto|].
      constructor; auto. eapply (mono s1 s2); eauto.
  Qed.

  Lemma log_R s dn lv w x o : inv s dn lv w x -> In o (dn ++ lv) -> R o.
  Proof. intros I Ho. eapply i_reach; [exact I|]. rewrite !in_app_iff in *. tauto. Qed.

  (** a field of the object that is scanned *)
  Lemma read_field s dn lv w c i : inv s dn lv w (Some c) -> (i < scanned (shapes c))%nat ->
    exists v, read s (at_ s) (Z.of_nat i + 1) = Ok v /\ nth_error (words (shapes c)) (S i) = Some v.
  Proof.
    intros I C. destruct (i_cur _ _ _ _ _ I c eq_refl) as (_ & Hc & Wc).
    assert (Yc : places c = Young) by (eapply R_young, log_R; eauto).
    destruct (Made c Yc) as ((_ & _ & S2 & _) & _).
    destruct (nth_error (words (shapes c)) (S i)) as [v|] eqn:Nv; [|apply nth_error_None in Nv; lia].
    exists v. split; [|auto]. apply in_app_iff in Hc. destruct Hc as [Hc|Hc].
    - unfold where_is in Wc. rewrite (i_dn _ _ _ _ _ I c Hc) in Wc. injection Wc as <-.
      cbn [read]. rewrite (i_dn _ _ _ _ _ I c Hc). replace (Z.to_nat (Z.of_nat i + 1)) with (S i) by lia.
      rewrite Nv. auto.
    - destruct (lv_at _ _ _ _ _ _ I Hc) as (a & Pa & Ma). unfold where_is in Wc. rewrite Pa in Wc. injection Wc as <-.
      cbn [read]. rewrite <- (Ma _ _ Nv). do 2 f_equal. lia.
  Qed.

  Lemma fields_nth o v : In v (fields (shapes o)) ->
    exists j, (j < scanned (shapes o))%nat /\ nth_error (words (shapes o)) (S j) = Some v.
  Proof.
    unfold fields. intros E. apply In_nth_error in E. destruct E as (j & E). exists j.
    assert (C : (j < length (firstn (scanned (shapes o)) (tl (words (shapes o)))))%nat) by (apply nth_error_Some; congruence).
    rewrite firstn_length in C. split; [lia|]. rewrite nth_error_firstn_lt in E by lia.
    destruct (words (shapes o)); [destruct j; discriminate|]. exact E.
  Qed.

  Lemma scan_fields_inv c : forall n i s dn lv, inv s dn lv [] (Some c) -> (i + n = scanned (shapes c))%nat ->
    (forall j v, (j < i)%nat -> nth_error (words (shapes c)) (S j) = Some v -> copied_in (place_of s) v) ->
    exists s' dn' lv', scan_fields shapes fuel n (Z.of_nat i) s = Ok s' /\ inv s' dn' lv' [] (Some c)
      /\ ext s s' dn lv dn' lv' /\ settled s' c.
  Proof.
    induction n as [|n IH]; intros i s dn lv I E D; cbn [scan_fields].
    - exists s, dn, lv. split; auto. split; auto. split; [apply ext_refl|].
      intros v Hv. apply fields_nth in Hv. destruct Hv as (j & C & N). apply (D j v); auto. lia.
    - destruct (read_field _ _ _ _ _ i I ltac:(lia)) as (v & Rv & Nv). rewrite Rv. cbn [obind].
      assert (Ov : okw v).
      { eapply field_ok; [|eapply field_in; [|exact Nv]; lia]. eapply log_R; [exact I|]. eapply i_cur; eauto. }
      destruct (maybe_copy_inv _ _ _ _ v I Ov) as (s1 & dn1 & lv1 & E1 & I1 & X1 & C1). rewrite E1. cbn [obind].
      replace (Z.of_nat i + 1) with (Z.of_nat (S i)) by lia.
      destruct (IH (S i) s1 dn1 lv1 I1 ltac:(lia)) as (s2 & dn2 & lv2 & E2 & I2 & X2 & C2).
      + intros j u Hj Nu. destruct (Nat.eq_dec j i) as [->|]; [congruence|].
        eapply (mono s s1); eauto. eapply D; eauto. lia.
      + exists s2, dn2, lv2. split; auto. split; auto. split; [eapply ext_trans; eauto|auto].
  Qed.

  Definition len (dn lv : list nat) : Z := Z.of_nat (length (dn ++ lv)).

  Lemma cheney_inv : forall k s dn lv, inv s dn lv [] None ->
    Z.of_nat (length L) < Z.of_nat k + queue_at s ->
    exists s' dn' lv', cheney shapes fuel k s = Ok s' /\ inv s' dn' lv' [] None
      /\ ext s s' dn lv dn' lv' /\ queue_at s' = len dn' lv'.
  Proof.
    induction k as [|k IH]; intros s dn lv I F.
    { exfalso. pose proof (inv_few _ _ _ _ _ I). pose proof (i_at _ _ _ _ _ I). lia. }
    cbn [cheney]. pose proof (i_tq _ _ _ _ _ I) as T. rewrite T. cbn [q_alloc q_top].
    pose proof (i_at _ _ _ _ _ I) as A. rewrite !app_nil_r in *.
    destruct (queue_at s =? Z.of_nat (length (dn ++ lv))) eqn:C.
    - exists s, dn, lv. split; auto. split; auto. split; [apply ext_refl|]. unfold len. lia.
    - destruct (Z.of_nat (length (dn ++ lv)) <=? queue_at s) eqn:C2; [lia|]. rewrite C.
      destruct (nth_error (dn ++ lv) (Z.to_nat (queue_at s))) as [o|] eqn:No;
        [|apply nth_error_None in No; lia].
      assert (Hs : slot s (queue_at s) = o).
      { replace (queue_at s) with (Z.of_nat (Z.to_nat (queue_at s))) by lia.
        eapply i_slot; [exact I|]. rewrite app_nil_r. auto. }
      rewrite Hs. assert (Ho : In o (dn ++ lv)) by (eapply nth_error_In; eauto).
      assert (Yo : places o = Young) by (eapply R_young, log_R; eauto).
      destruct (Made o Yo) as (_ & Ep). rewrite Ep.
      set (s1 := set_scan (set_current s o) (queue_at s + 1)).
      assert (W : exists b, where_is s1 o = Ok b).
      { unfold where_is. change (place_of s1 o) with (place_of s o). apply in_app_iff in Ho. destruct Ho as [Ho|Ho].
        - rewrite (i_dn _ _ _ _ _ I o Ho). eauto.
        - destruct (lv_at _ _ _ _ _ _ I Ho) as (a & -> & _). eauto. }
      destruct W as (b & W). rewrite W. cbn [obind].
      assert (I1 : inv (set_at s1 b) dn lv [] (Some o)).
      { destruct I as [I1 I2 I3 I4 I5 I6 I7 I8 I9 I10 I11 I12 I13]. split; auto.
        - cbn. rewrite app_nil_r in *. lia.
        - intros i y Hy Hx. destruct (I10 i y Hy ltac:(discriminate)) as [P|P]; [|right; exact P].
          left. cbn. destruct (Z.eq_dec (queue_at s) (Z.of_nat i)) as [Ei|]; [|lia].
          exfalso. apply Hx. rewrite app_nil_r in Hy. rewrite Ei, Nat2Z.id in No. congruence.
        - intros c [= <-]. split; [auto|]. split; [auto|]. exact W. }
      destruct (scan_fields_inv o (scanned (shapes o)) 0 _ dn lv I1 ltac:(lia) ltac:(intros; lia))
        as (s2 & dn2 & lv2 & E2 & I2 & X2 & C3).
      change (Z.of_nat 0) with 0 in E2. rewrite E2. cbn [obind].
      assert (I3 : inv s2 dn2 lv2 [] None).
      { destruct I2 as [J1 J2 J3 J4 J5 J6 J7 J8 J9 J10 J11 J12 J13]. split; auto.
        - intros i y Hy _. destruct (Nat.eq_dec y o) as [->|Dy]; [auto|]. apply (J10 i y Hy). congruence.
        - discriminate. }
      assert (X3 : ext s s2 dn lv dn2 lv2).
      { destruct X2 as [X21 X22 X23 X24]. split; auto. cbn in X24. lia. }
      destruct (IH s2 dn2 lv2 I3) as (s' & dn' & lv' & E' & I' & X' & Q').
      { destruct X2 as [_ _ _ X24]. cbn in X24. lia. }
      exists s', dn', lv'. split; auto. split; auto. split; [eapply ext_trans; eauto|auto].
  Qed.

  Lemma cheney_ok s dn lv : inv s dn lv [] None ->
    exists s' dn' lv', cheney shapes fuel fuel s = Ok s' /\ inv s' dn' lv' [] None
      /\ ext s s' dn lv dn' lv' /\ queue_at s' = len dn' lv'.
  Proof. intros I. apply cheney_inv; [auto|]. pose proof (i_at _ _ _ _ _ I). lia. Qed.

  Lemma grey_pages_inv l : Forall (Forall okw) l -> forall s dn lv, inv s dn lv [] None ->
    exists s' dn' lv', grey_pages shapes fuel l s = Ok s' /\ inv s' dn' lv' [] None
      /\ ext s s' dn lv dn' lv' /\ Forall (Forall (copied_in (place_of s'))) l.
  Proof.
    induction 1 as [|p l Op Ol IH]; intros s dn lv I; cbn [grey_pages].
    - exists s, dn, lv. split; auto. split; auto. split; [apply ext_refl|auto].
    - destruct (copy_words_inv None p Op s dn lv I) as (s1 & dn1 & lv1 & E1 & I1 & X1 & C1). rewrite E1. cbn [obind].
      destruct (cheney_ok _ _ _ I1) as (s2 & dn2 & lv2 & E2 & I2 & X2 & Q2). rewrite E2. cbn [obind].
      destruct (IH s2 dn2 lv2 I2) as (s3 & dn3 & lv3 & E3 & I3 & X3 & C3).
      exists s3, dn3, lv3. split; auto. split; auto.
      split; [eapply ext_trans; [|exact X3]; eapply ext_trans; eauto|]. constructor; [|auto].
      eapply Forall_impl; [|exact C1]. intros v Hv. eapply (mono s1 s3); [exact I1|exact I3| |exact Hv].
      eapply ext_trans; eauto.
  Qed.

  Lemma copy_range_inv o : forall n i s dn lv, inv s dn lv [] None -> In o dn ->
    (i + n = scanned (shapes o))%nat ->
    (forall j v, (j < i)%nat -> nth_error (words (shapes o)) (S j) = Some v -> copied_in (place_of s) v) ->
    exists s' dn' lv', copy_range shapes fuel n (InOld o) (Z.of_nat i + 1) s = Ok s' /\ inv s' dn' lv' [] None
      /\ ext s s' dn lv dn' lv' /\ settled s' o.
  Proof.
    induction n as [|n IH]; intros i s dn lv I Ho E D; cbn [copy_range].
    - exists s, dn, lv. split; auto. split; auto. split; [apply ext_refl|].
      intros v Hv. apply fields_nth in Hv. destruct Hv as (j & C & N). apply (D j v); auto. lia.
    - assert (Ro : R o) by (eapply log_R; [exact I|]; apply in_app_iff; auto).
      destruct (Made o (R_young o Ro)) as ((_ & _ & S2 & _) & _).
      destruct (nth_error (words (shapes o)) (S i)) as [v|] eqn:Nv; [|apply nth_error_None in Nv; lia].
      assert (Rv : read s (InOld o) (Z.of_nat i + 1) = Ok v).
      { cbn [read]. rewrite (i_dn _ _ _ _ _ I o Ho). replace (Z.to_nat (Z.of_nat i + 1)) with (S i) by lia. rewrite Nv. auto. }
      rewrite Rv. cbn [obind].
      assert (Ov : okw v) by (eapply field_ok; [exact Ro|eapply field_in; [|exact Nv]; lia]).
      destruct (maybe_copy_inv _ _ _ _ v I Ov) as (s1 & dn1 & lv1 & E1 & I1 & X1 & C1). rewrite E1. cbn [obind].
      replace (Z.of_nat i + 1 + 1) with (Z.of_nat (S i) + 1) by lia.
      destruct (IH (S i) s1 dn1 lv1 I1 (ext_dn _ _ _ _ _ _ _ X1 Ho) ltac:(lia)) as (s2 & dn2 & lv2 & E2 & I2 & X2 & C2).
      + intros j u Hj Nu. destruct (Nat.eq_dec j i) as [->|]; [congruence|].
        eapply (mono s s1); eauto. eapply D; eauto. lia.
      + exists s2, dn2, lv2. split; auto. split; auto. split; [eapply ext_trans; eauto|auto].
  Qed.

  Lemma grey_objects_inv : forall k s dn lv, inv s dn lv [] None -> queue_at s = len dn lv ->
    (length (grey s) + length L < k + length dn)%nat ->
    exists s' dn' lv', grey_objects shapes fuel k s = Ok s' /\ inv s' dn' lv' [] None
      /\ (exists more, dn' ++ lv' = dn ++ lv ++ more) /\ grey s' = [] /\ queue_at s' = len dn' lv'.
  Proof.
    induction k as [|k IH]; intros s dn lv I Q F.
    { exfalso. pose proof (inv_few _ _ _ _ _ I) as C. rewrite app_length in C. lia. }
    cbn [grey_objects]. destruct (grey s) as [|[[o [b i]] n] rest] eqn:G.
    - exists s, dn, lv. split; auto. split; auto. split; [exists []; rewrite app_nil_r; auto|]. auto.
    - pose proof (i_grey _ _ _ _ _ I) as Fg. rewrite G in Fg. inversion Fg as [|? ? Fo Fr]; subst.
      destruct Fo as (-> & -> & -> & Ho).
      unfold where_is. rewrite (i_dn _ _ _ _ _ I o Ho). cbn [obind].
      assert (Ro : R o) by (eapply log_R; [exact I|]; apply in_app_iff; auto).
      destruct (Made o (R_young o Ro)) as (_ & Ep). rewrite Ep.
      destruct (copy_range_inv o (scanned (shapes o)) 0 s dn lv I Ho ltac:(lia) ltac:(intros; lia))
        as (s1 & dn1 & lv1 & E1 & I1 & X1 & C1).
      change (Z.of_nat 0 + 1) with 1 in E1. rewrite E1. cbn [obind].
      destruct X1 as [(m1 & L1) (ng & G1 & Ln) (t1 & D1) A1]. rewrite G in G1.
      assert (I2 : inv (set_grey s1 (tl (grey s1))) dn1 lv1 [] None).
      { destruct I1 as [J1 J2 J3 J4 J5 J6 J7 J8 J9 J10 J11 J12 J13]. split; auto.
        - intros j y Hy _. destruct (J10 j y Hy ltac:(discriminate)) as [P|[P|P]]; auto.
          destruct P as (e & P1 & P2). rewrite G1 in P1. destruct P1 as [<-|P1].
          + cbn in P2. subst y. right; right. exact C1.
          + right; left. exists e. cbn. rewrite G1. cbn. auto.
        - cbn. rewrite G1 in *. inversion J11; auto. }
      destruct (cheney_ok _ _ _ I2) as (s2 & dn2 & lv2 & E2 & I3 & X2 & Q2). rewrite E2. cbn [obind].
      destruct X2 as [(m2 & L2) (ng2 & G2 & Ln2) (t2 & D2) A2].
      destruct (IH s2 dn2 lv2 I3 Q2) as (s' & dn' & lv' & E' & I' & (m & L') & G' & Q').
      { rewrite G2. cbn [grey set_grey]. rewrite G1. cbn [tl app]. cbn [length] in F.
        rewrite !app_length. lia. }
      exists s', dn', lv'. split; auto. split; auto. split; [|auto].
      exists (m1 ++ m2 ++ m). rewrite L'. rewrite (app_assoc dn2), L2, <- !app_assoc. rewrite (app_assoc dn1), L1, <- !app_assoc. auto.
  Qed.

  Theorem scavenge_ok pages registered registers m slots last at0 :
    roots = concat pages ++ registered ++ registers ->
    exists s', scavenge shapes fuel pages registered registers (start places m slots H last at0) = Ok s'
      /\ (forall o, places o = Old -> place_of s' o = Old)
      /\ (forall o, R o -> holds s' o (words (shapes o)))
      /\ (forall o, places o = Young -> ~ R o -> place_of s' o = Young)
      /\ apart shapes H s' /\ mourned s' = [].
  Proof.
    intros Er. set (s0 := start places m slots H last at0).
    assert (I0 : inv s0 [] [] [] None).
    { split; cbn [app]; auto.
      - constructor.
      - intros o [].
      - intros o [].
      - unfold layout, split_queue, s0, start. cbn. split; auto. split; [lia|]. split; [lia|]. split; auto.
        split; [|auto]. pose proof (Z.mul_div_le H 2). lia.
      - intros [|i] o; discriminate.
      - cbn. lia.
      - intros [|i] o; discriminate.
      - constructor.
      - discriminate. }
    assert (Okr : forall v, In v roots -> okw v).
    { intros [z|o] Hv; cbn; auto. intros Y. apply reach_root; auto. }
    unfold scavenge.
    destruct (grey_pages_inv pages) with (s := s0) (dn := @nil nat) (lv := @nil nat)
      as (s1 & dn1 & lv1 & E1 & I1 & X1 & C1).
    { apply Forall_forall. intros p Hp. apply Forall_forall. intros v Hv. apply Okr. rewrite Er, in_app_iff.
      left. apply in_concat. eauto. }
    { exact I0. }
    rewrite E1. cbn [obind].
    destruct (copy_words_inv None registered) with (s := s1) (dn := dn1) (lv := lv1)
      as (s2 & dn2 & lv2 & E2 & I2 & X2 & C2).
    { apply Forall_forall. intros v Hv. apply Okr. rewrite Er, !in_app_iff. auto. }
    { exact I1. }
    rewrite E2. cbn [obind].
    destruct (cheney_ok _ _ _ I2) as (s3 & dn3 & lv3 & E3 & I3 & X3 & Q3). rewrite E3. cbn [obind].
    destruct (copy_words_inv None registers) with (s := s3) (dn := dn3) (lv := lv3)
      as (s4 & dn4 & lv4 & E4 & I4 & X4 & C4).
    { apply Forall_forall. intros v Hv. apply Okr. rewrite Er, !in_app_iff. auto. }
    { exact I3. }
    rewrite E4. cbn [obind].
    destruct (cheney_ok _ _ _ I4) as (s5 & dn5 & lv5 & E5 & I5 & X5 & Q5). rewrite E5. cbn [obind].
    assert (X05 : ext s0 s5 [] [] dn5 lv5).
    { eapply ext_trans; [|exact X5]. eapply ext_trans; [|exact X4]. eapply ext_trans; [|exact X3].
      eapply ext_trans; [|exact X2]. exact X1. }
    destruct (grey_objects_inv fuel s5 dn5 lv5 I5 Q5) as (s' & dn' & lv' & E' & I' & (more & L') & G' & Q').
    { destruct X05 as [_ (ng & G & Ln) _ _]. rewrite G. cbn [grey start s0 app length] in *. 
      lia. }
    exists s'. split; [exact E'|].
    assert (Mono : forall s dn lv v, inv s dn lv [] None -> ext s s5 dn lv dn5 lv5 ->
                     copied_in (place_of s) v -> copied_in (place_of s') v).
    { intros s dn lv v I X C. pose proof (mono _ _ _ _ _ _ _ _ _ _ v I I5 X C) as D.
      destruct v as [z|y]; cbn in *; auto. destruct (Bef y) as [Y|Y].
      - apply (copied_place _ _ _ _ _ _ I' Y). rewrite L', app_assoc. apply in_app_iff. left.
        apply (copied_place _ _ _ _ _ _ I5 Y). auto.
      - rewrite (i_old _ _ _ _ _ I' y Y). discriminate. }
    assert (Roots : forall v, In v roots -> copied_in (place_of s') v).
    { intros v Hv. rewrite Er, !in_app_iff in Hv. destruct Hv as [Hv|[Hv|Hv]].
      - apply in_concat in Hv. destruct Hv as (p & Hp & Hv). rewrite Forall_forall in C1.
        specialize (C1 p Hp). rewrite Forall_forall in C1. eapply Mono; [exact I1| |apply C1; auto].
        eapply ext_trans; [|exact X5]. eapply ext_trans; [|exact X4]. eapply ext_trans; [|exact X3]. exact X2.
      - rewrite Forall_forall in C2. eapply Mono; [exact I2| |apply C2; auto].
        eapply ext_trans; [|exact X5]. eapply ext_trans; [|exact X4]. exact X3.
      - rewrite Forall_forall in C4. eapply Mono; [exact I4| |apply C4; auto]. exact X5. }
    assert (Sett : forall o, In o (dn' ++ lv') -> settled s' o).
    { intros o Ho. apply In_nth_error in Ho. destruct Ho as (i & Hi).
      destruct (i_pend _ _ _ _ _ I' i o) as [P|[P|P]]; [rewrite app_nil_r; auto|discriminate| | |auto].
      - exfalso. assert (i < length (dn' ++ lv'))%nat by (apply nth_error_Some; congruence). unfold len in Q'. lia.
      - exfalso. destruct P as (e & P & _). rewrite G' in P. auto. }
    assert (All : forall o, R o -> In o (dn' ++ lv')).
    { intros o Ro. induction Ro as [o Y Hr|o y Ry IHy Y Hf].
      - apply (copied_place _ _ _ _ _ _ I' Y). exact (Roots _ Hr).
      - apply (copied_place _ _ _ _ _ _ I' Y). exact (Sett y IHy _ Hf). }
    split; [apply (i_old _ _ _ _ _ I')|]. split; [|split; [|split]].
    - intros o Ro. unfold holds. specialize (All o Ro). apply in_app_iff in All. destruct All as [A|A].
      + rewrite (i_dn _ _ _ _ _ I' o A). auto.
      + destruct (lv_at _ _ _ _ _ _ I' A) as (a & -> & Ma). exact Ma.
    - intros o Y N. eapply i_young; [exact I'|auto|]. intros C. apply N. eapply log_R; eauto.
    - assert (AtIn : forall o a, place_of s' o = At a -> In o lv').
      { intros o a P. destruct (Bef o) as [Y|Y]; [|rewrite (i_old _ _ _ _ _ I' o Y) in P; discriminate].
        assert (C : In o (dn' ++ lv')) by (apply (copied_place _ _ _ _ _ _ I' Y); congruence).
        apply in_app_iff in C. destruct C as [C|C]; auto. rewrite (i_dn _ _ _ _ _ I' o C) in P. discriminate. }
      pose proof (lv_young _ _ _ _ _ I') as Yl.
      assert (NDl : NoDup lv').
      { pose proof (i_nodup _ _ _ _ _ I') as N. rewrite app_nil_r in N. eapply NoDup_app_r; eauto. }
      destruct (i_half _ _ _ _ _ I') as (Mx & T0 & A0 & G). intros o a P.
      pose proof (AtIn o a P) as Ho. destruct (split_queue (half s')).
      + destruct G as (l1 & l2 & E & N1 & La1 & La2 & G3 & G4).
        assert (Y1 : forall y, In y l1 -> places y = Young) by (intros; apply Yl; rewrite E; apply in_app_iff; auto).
        assert (Y2 : forall y, In y l2 -> places y = Young) by (intros; apply Yl; rewrite E; apply in_app_iff; auto).
        rewrite E in NDl. pose proof (NoDup_app_l _ _ NDl) as ND1. pose proof (NoDup_app_r _ _ NDl) as ND2.
        pose proof (laid_le _ _ _ _ _ Y1 La1). pose proof (laid_le _ _ _ _ _ Y2 La2).
        rewrite E in Ho. apply in_app_iff in Ho.
        assert (B1 : forall y, In y l1 -> exists c, place_of s' y = At c /\ q_tenure (half s') <= c /\ c + sz y <= q_top (half s')).
        { intros y Hy. destruct (laid_at _ _ _ _ _ _ Y1 La1 Hy) as (c & ? & ? & ? & _). eauto. }
        assert (B2 : forall y, In y l2 -> exists c, place_of s' y = At c /\ 0 <= c /\ c + sz y <= q_alloc (half s')).
        { intros y Hy. destruct (laid_at _ _ _ _ _ _ Y2 La2 Hy) as (c & ? & ? & ? & _). eauto. }
        split; [|split].
        * destruct Ho as [Ho|Ho]; [destruct (B1 o Ho) as (c & Pc & ? & ?)|destruct (B2 o Ho) as (c & Pc & ? & ?)];
            rewrite P in Pc; injection Pc as ->; lia.
        * destruct Ho as [Ho|Ho]; [destruct (B1 o Ho) as (c & Pc & ? & ?)|destruct (B2 o Ho) as (c & Pc & ? & ?)];
            rewrite P in Pc; injection Pc as ->; fold (sz o); lia.
        * intros o' a' P' Dn. pose proof (AtIn o' a' P') as Ho'. rewrite E in Ho'. apply in_app_iff in Ho'.
          fold (sz o) (sz o').
          destruct Ho as [Ho|Ho], Ho' as [Ho'|Ho'].
          -- destruct (laid_apart _ _ _ _ _ o o' Y1 ND1 La1 Ho Ho' ltac:(congruence)) as (c & c' & P1 & P2 & P3).
             rewrite P in P1. rewrite P' in P2. injection P1 as ->. injection P2 as ->. auto.
          -- destruct (B1 o Ho) as (c & Pc & ? & ?), (B2 o' Ho') as (c' & Pc' & ? & ?).
             rewrite P in Pc. rewrite P' in Pc'. injection Pc as ->. injection Pc' as ->. lia.
          -- destruct (B2 o Ho) as (c & Pc & ? & ?), (B1 o' Ho') as (c' & Pc' & ? & ?).
             rewrite P in Pc. rewrite P' in Pc'. injection Pc as ->. injection Pc' as ->. lia.
          -- destruct (laid_apart _ _ _ _ _ o o' Y2 ND2 La2 Ho Ho' ltac:(congruence)) as (c & c' & P1 & P2 & P3).
             rewrite P in P1. rewrite P' in P2. injection P1 as ->. injection P2 as ->. auto.
      + destruct G as (La & G2 & G3).
        destruct (laid_at _ _ _ _ _ o Yl La Ho) as (c & Pc & ? & ? & _). rewrite P in Pc. injection Pc as <-.
        split; [lia|]. split; [fold (sz o); lia|]. intros o' a' P' Dn. pose proof (AtIn o' a' P') as Ho'. fold (sz o) (sz o').
        destruct (laid_apart _ _ _ _ _ o o' Yl NDl La Ho Ho' ltac:(congruence)) as (c & c' & P1 & P2 & P3).
        rewrite P in P1. rewrite P' in P2. injection P1 as ->. injection P2 as ->. auto.
    - apply (i_mourn _ _ _ _ _ I').
  Qed.
End Proofs.
