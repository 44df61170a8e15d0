(** Searching and walking the trees; registering and unregistering. *)
From Coq Require Import ZArith List Bool Lia Permutation ZifyBool Sorted.
From Verif Require Import Base RbTree RbHeap RbBal RbErase RbUnlink.
Import ListNotations.
Local Open Scope Z_scope.

(** not code *)
Definition ky (x : Z * Z * Z) : Z := snd (fst x).
(** not code *)
Definition keys (L : list (Z * Z * Z)) : list Z := map ky L.
(** not code *)
Definition ss (L : list (Z * Z * Z)) : Prop := StronglySorted Z.lt (keys L).

Lemma ss_app A B : ss (A ++ B) <->
  ss A /\ ss B /\ Forall (fun x => Forall (Z.lt x) (keys B)) (keys A).
Proof.
  unfold ss, keys. rewrite map_app. generalize (map ky A) (map ky B). clear. intros A B.
  induction A as [|a A IH]; cbn.
  - split; [intros H; repeat split; try easy; constructor|now intros (_ & H & _)].
  - split.
    + intros H. apply StronglySorted_inv in H. destruct H as [H1 H2].
      apply IH in H1. destruct H1 as (A1 & A2 & A3). apply Forall_app in H2.
      repeat split; try easy; constructor; easy.
    + intros (H1 & H2 & H3). apply StronglySorted_inv in H1. destruct H1 as [H1 H1'].
      inversion_clear H3. constructor; [now apply IH|]. now apply Forall_app.
Qed.

Lemma ss_mid A a k u B : ss (A ++ (a, k, u) :: B) <->
  ss (A ++ B) /\ Forall (fun x => x < k) (keys A) /\ Forall (Z.lt k) (keys B).
Proof.
  rewrite !ss_app. unfold ss, keys. cbn [map ky fst snd].
  split.
  - intros (H1 & H2 & H3). apply StronglySorted_inv in H2. destruct H2 as [H2 H2'].
    repeat split; try easy.
    + rewrite Forall_forall in *. intros x Hx. specialize (H3 x Hx). now inversion_clear H3.
    + rewrite Forall_forall in *. intros x Hx. specialize (H3 x Hx). now inversion_clear H3.
  - intros ((H1 & H2 & H3) & H4 & H5). split; [easy|]. split; [now constructor|].
    rewrite Forall_forall in *. intros x Hx. constructor; auto.
Qed.

Lemma keys_app A B : keys (A ++ B) = keys A ++ keys B.
Proof. apply map_app. Qed.

(** the hole is on the side the search went to; not code *)
Definition side (z : zip) (b : bool) : Prop :=
  match z with [] => True | FL _ _ _ _ _ :: _ => b = true | FR _ _ _ _ _ :: _ => b = false end.

Lemma child_zero s z t : R s (plug z t) -> (rt t =? 0) = match t with E => true | _ => false end.
Proof.
  intros H. destruct t as [|c a k u l r]; [reflexivity|].
  destruct (R_get _ _ _ _ _ _ _ _ H) as [_ Hn]. now apply Z.eqb_neq.
Qed.

Lemma locate_ok k s : forall fuel t z b,
  R s (plug z t) -> ss (flat (plug z t)) ->
  Forall (fun x => x < k) (keys (lz z)) -> Forall (Z.lt k) (keys (rz z)) ->
  side z b -> (ht t < fuel)%nat ->
  (exists z' c a u l r, plug z t = plug z' (T c a k u l r) /\
     locate fuel k (rt t) (pz 0 z) b (heap s) = Ok (Found a)) \/
  (exists z' b', plug z t = plug z' E /\ side z' b' /\
     Forall (fun x => x < k) (keys (lz z')) /\ Forall (Z.lt k) (keys (rz z')) /\
     locate fuel k (rt t) (pz 0 z) b (heap s) = Ok (Below (pz 0 z') b')).
Proof.
  induction fuel as [|fuel IH]; intros t z b HR Hs Hl Hr Hb Hf; [lia|].
  cbn [locate]. rewrite (child_zero _ _ _ HR).
  destruct t as [|c a k' u l r].
  - right. exists z, b. auto.
  - cbn [rt]. bget HR. cbn [key].
    assert (Hs' := Hs). rewrite flat_plug in Hs'. cbn [flat] in Hs'.
    rewrite <- app_assoc in Hs'. cbn [app] in Hs'. rewrite app_assoc in Hs'.
    apply ss_mid in Hs'. destruct Hs' as (_ & Hs1 & Hs2).
    rewrite keys_app, Forall_app in Hs1, Hs2. destruct Hs1 as [_ Hs1], Hs2 as [Hs2 _].
    cbn [ht] in Hf.
    destruct (Z.ltb_spec k k').
    + apply (IH l (FL c a k' u r :: z) true); try easy; [|lia].
      cbn [rz keys map ky fst snd]. constructor; [easy|]. fold (keys (flat r ++ rz z)).
      rewrite keys_app. apply Forall_app. split; [|easy].
      rewrite Forall_forall in *. intros x Hx. specialize (Hs2 x Hx). lia.
    + destruct (Z.ltb_spec k' k).
      * apply (IH r (FR c a k' u l :: z) false); try easy; [|lia].
        cbn [lz]. rewrite !keys_app. apply Forall_app. split; [easy|].
        apply Forall_app. split; [|now constructor].
        rewrite Forall_forall in *. intros x Hx. specialize (Hs1 x Hx). lia.
      * left. replace k' with k by lia. exists z, c, a, u, l, r. auto.
Qed.

Lemma find_ok k s : forall fuel t z,
  R s (plug z t) -> ss (flat (plug z t)) ->
  Forall (fun x => x < k) (keys (lz z)) -> Forall (Z.lt k) (keys (rz z)) ->
  (ht t < fuel)%nat ->
  (exists z' c a u l r, plug z t = plug z' (T c a k u l r) /\
     find fuel k (rt t) (heap s) = Ok a) \/
  (~ In k (keys (flat (plug z t))) /\ find fuel k (rt t) (heap s) = Ok 0).
Proof.
  induction fuel as [|fuel IH]; intros t z HR Hs Hl Hr Hf; [lia|].
  cbn [find]. rewrite (child_zero _ _ _ HR).
  destruct t as [|c a k' u l r].
  - right. split; [|easy]. rewrite flat_plug. cbn [flat app]. rewrite keys_app, in_app_iff.
    rewrite Forall_forall in *. intros [H|H]; [apply Hl in H|apply Hr in H]; lia.
  - cbn [rt]. bget HR. cbn [key].
    assert (Hs' := Hs). rewrite flat_plug in Hs'. cbn [flat] in Hs'.
    rewrite <- app_assoc in Hs'. cbn [app] in Hs'. rewrite app_assoc in Hs'.
    apply ss_mid in Hs'. destruct Hs' as (_ & Hs1 & Hs2).
    rewrite keys_app, Forall_app in Hs1, Hs2. destruct Hs1 as [_ Hs1], Hs2 as [Hs2 _].
    cbn [ht] in Hf.
    destruct (Z.eqb_spec k' k) as [->|Hne]; [left; exists z, c, a, u, l, r; auto|].
    destruct (Z.ltb_spec k k').
    + apply (IH l (FL c a k' u r :: z)); try easy; [|lia].
      cbn [rz keys map ky fst snd]. constructor; [easy|]. fold (keys (flat r ++ rz z)).
      rewrite keys_app. apply Forall_app. split; [|easy].
      rewrite Forall_forall in *. intros x Hx. specialize (Hs2 x Hx). lia.
    + apply (IH r (FR c a k' u l :: z)); try easy; [|lia].
      cbn [lz]. rewrite !keys_app. apply Forall_app. split; [easy|].
      apply Forall_app. split; [|now constructor; [unfold ky; cbn; lia|]].
      rewrite Forall_forall in *. intros x Hx. specialize (Hs1 x Hx). lia.
Qed.

(** ** the operations *)

Lemma insert_ok fuel s t z b a k :
  R s t -> good t -> t = plug z E -> side z b -> a <> 0 -> heap s a = None ->
  (ht t + 2 <= fuel)%nat ->
  ok (let m := upd (heap s) a (Nd (pz 0 z) 0 0 false k 1) in
      olet s := (if pz 0 z =? 0 then Ok (St m a)
                 else if b then olet m := setL (pz 0 z) a m in Ok (St m (root s))
                 else olet m := setR (pz 0 z) a m in Ok (St m (root s))) in
      rebalance fuel a s)
     (fun s' => exists t', R s' t' /\ good t' /\ flat t' = lz z ++ (a, k, 1) :: rz z).
Proof.
  intros HR [Hgb [N Hgr]] Et Hb Ha Hfr Hf. subst t.
  destruct (unplug _ _ _ Hgr Hgb) as (n & Hn & Hc & _). cbn in Hn. subst n.
  assert (Hh := ht_plug z E).
  destruct (R_hp _ _ _ HR) as [H0 Hr]. cbn [rt cells] in *. rewrite app_nil_r in H0.
  pose proof (hp_new _ a (Nd (pz 0 z) 0 0 false k 1) _ Ha Hfr H0) as H1. cbn zeta.
  assert (Hgoal : ok (if pz 0 z =? 0 then Ok (St (upd (heap s) a (Nd (pz 0 z) 0 0 false k 1)) a)
       else if b then olet m := setL (pz 0 z) a (upd (heap s) a (Nd (pz 0 z) 0 0 false k 1)) in
                 Ok (St m (root s))
       else olet m := setR (pz 0 z) a (upd (heap s) a (Nd (pz 0 z) 0 0 false k 1)) in
                 Ok (St m (root s))) (fun s' => R s' (plug z (T false a k 1 E E)))).
  { destruct z as [|f z].
    - cbn. apply ok_ret. apply (hp_R _ _ [] (T false a k 1 E E)); [|easy]. exact H1.
    - assert (Hnz : fa f <> 0).
      { destruct f as [c p kp up q|c p kp up q]; cbn [plug put] in HR;
          now destruct (R_get _ _ _ _ _ _ _ _ HR). }
      cbn [pz]. rewrite (proj2 (Z.eqb_neq _ _) Hnz).
      destruct f as [c p kp up q|c p kp up q]; cbn [side fa] in Hb |- *; subst b.
      + assert (H2 : hp (upd (heap s) a (Nd p 0 0 false k 1))
          ((p, Nd (pz 0 z) 0 (rt q) c kp up) :: (a, Nd p 0 0 false k 1) :: cells p q ++ cctx 0 z p))
          by hperm H1.
        bstep setL_ok; [exact H2|]. cbn [par lft rgt red key usage]. intros m H3.
        apply ok_ret. apply hp_R; [hperm H3|exact Hr].
      + assert (H2 : hp (upd (heap s) a (Nd p 0 0 false k 1))
          ((p, Nd (pz 0 z) (rt q) 0 c kp up) :: (a, Nd p 0 0 false k 1) :: cells p q ++ cctx 0 z p))
          by hperm H1.
        bstep setR_ok; [exact H2|]. cbn [par lft rgt red key usage]. intros m H3.
        apply ok_ret. apply hp_R; [hperm H3|exact Hr]. }
  eapply ok_bind; [exact Hgoal|]. intros s1 H2.
  eapply ok_mono; [apply (rebalance_ok fuel z s1 a k 1 E E 0%nat false H2)|].
  - cbn. auto.
  - exact Hc.
  - cbn [ht] in Hh. lia.
  - intros s' (t' & A1 & A2 & A3). exists t'. split; [easy|]. split; [easy|].
    rewrite A2, flat_plug. reflexivity.
Qed.

Lemma good_usage z c a k u u' l r : good (plug z (T c a k u l r)) -> good (plug z (T c a k u' l r)).
Proof.
  intros [Hb [N Hr]]. destruct (unplug _ _ _ Hr Hb) as (n & H1 & H2 & H3).
  apply good_plug with n; [easy|destruct c; exact H1|]. cbn [isr] in *. destruct c; auto.
Qed.

Lemma register_ok fuel s t a k :
  R s t -> good t -> ss (flat t) -> a <> 0 -> heap s a = None -> (ht t + 2 <= fuel)%nat ->
  ok (register fuel a k s) (fun s' => exists t', R s' t' /\ good t' /\ ss (flat t') /\
    ((exists A a0 u B, flat t = A ++ (a0, k, u) :: B /\ flat t' = A ++ (a0, k, u + 1) :: B) \/
     (exists A B, ~ In k (keys (flat t)) /\ flat t = A ++ B /\ flat t' = A ++ (a, k, 1) :: B))).
Proof.
  intros HR Hg Hs Ha Hfr Hf. unfold register.
  assert (Hroot : root s = rt t) by now destruct HR. rewrite Hroot.
  destruct (locate_ok k s fuel t [] false HR Hs) as
    [(z & c & a0 & u & l & r & E1 & E2)|(z & b & E1 & Hsd & Hl & Hr & E2)];
    try (constructor || easy || lia); cbn [pz] in E2; cbn [plug] in E1; rewrite E2; cbn [obind].
  - subst t. bget HR. cbn [usage].
    eapply ok_mono; [apply (R_usage s z c a0 k u l r (u + 1) HR)|].
    intros s' H1. exists (plug z (T c a0 k (u + 1) l r)). split; [exact H1|].
    split; [now apply good_usage with u|].
    split.
    + revert Hs. rewrite !flat_plug. cbn [flat]. rewrite <- !app_assoc. cbn [app].
      rewrite !app_assoc. rewrite !ss_mid. easy.
    + left. exists (lz z ++ flat l), a0, u, (flat r ++ rz z).
      rewrite !flat_plug. cbn [flat]. rewrite <- !app_assoc. easy.
  - rewrite <- ?Hroot. eapply ok_mono; [apply (insert_ok fuel s t z b a k HR Hg E1 Hsd Ha Hfr Hf)|].
    intros s' (t' & A1 & A2 & A3). exists t'. split; [easy|]. split; [easy|].
    subst t. rewrite flat_plug in *. cbn [flat app] in *. rewrite A3. split.
    + apply ss_mid. easy.
    + right. exists (lz z), (rz z). split; [|easy]. rewrite keys_app, in_app_iff.
      rewrite Forall_forall in *. intros [H|H]; [apply Hl in H|apply Hr in H]; lia.
Qed.

(** the same with the search of _gst_register_oop_array *)
Lemma locateArray_absent k : forall fuel p ab b m w,
  locate fuel k p ab b m = Ok w ->
  match w with
  | Found _ => True
  | Below e b' => locateArray fuel k p ab b m = Ok (e, b', m)
  end.
Proof.
  induction fuel as [|fuel IH]; intros p ab b m w H; [easy|]. cbn [locate locateArray] in *.
  destruct (p =? 0); [injection H as <-; easy|].
  destruct (get m p) as [n| | | |]; cbn [obind] in *; try easy.
  destruct (k <? key n); [now apply IH|].
  destruct (key n <? k); [now apply IH|]. injection H as <-. easy.
Qed.

Lemma registerArray_ok fuel s t a k :
  R s t -> good t -> ss (flat t) -> a <> 0 -> heap s a = None -> (ht t + 2 <= fuel)%nat ->
  ~ In k (keys (flat t)) ->
  ok (registerArray fuel a k s) (fun s' => exists t', R s' t' /\ good t' /\ ss (flat t') /\
     (exists A B, flat t = A ++ B /\ flat t' = A ++ (a, k, 1) :: B)).
Proof.
  intros HR Hg Hs Ha Hfr Hf Hk. unfold registerArray.
  assert (Hroot : root s = rt t) by now destruct HR. rewrite Hroot.
  destruct (locate_ok k s fuel t [] false HR Hs) as
    [(z & c & a0 & u & l & r & E1 & E2)|(z & b & E1 & Hsd & Hl & Hr & E2)];
    try (constructor || easy || lia); cbn [pz] in E2; cbn [plug] in E1.
  - exfalso. apply Hk. rewrite E1, flat_plug. cbn [flat]. rewrite <- app_assoc, !keys_app.
    rewrite !in_app_iff. cbn. tauto.
  - apply locateArray_absent in E2. rewrite E2. cbn [obind].
    rewrite <- ?Hroot. eapply ok_mono; [apply (insert_ok fuel s t z b a k HR Hg E1 Hsd Ha Hfr Hf)|].
    intros s' (t' & A1 & A2 & A3). exists t'. split; [easy|]. split; [easy|].
    subst t. rewrite flat_plug in *. cbn [flat app] in *. rewrite A3. split.
    + apply ss_mid. easy.
    + exists (lz z), (rz z). easy.
Qed.

(** once the key is found the search never ends *)
Lemma locateArray_stuck k p ab b : forall fuel m n,
  p <> 0 -> m p = Some n -> key n = k -> locateArray fuel k p ab b m = OutOfFuel.
Proof.
  intros fuel. revert ab. induction fuel as [|fuel IH]; intros ab m n Hp Hm Hk; [easy|].
  cbn [locateArray]. rewrite (proj2 (Z.eqb_neq _ _) Hp). unfold get.
  rewrite (proj2 (Z.eqb_neq _ _) Hp), Hm. cbn [obind]. rewrite Hk, Z.ltb_irrefl.
  eapply IH; [easy|unfold upd; now rewrite Z.eqb_refl|easy].
Qed.

Lemma locateArray_loops k s : forall fuel t z b,
  R s (plug z t) -> ss (flat t) -> In k (keys (flat t)) ->
  locateArray fuel k (rt t) (pz 0 z) b (heap s) = OutOfFuel.
Proof.
  induction fuel as [|fuel IH]; intros t z b HR Hs Hk; [easy|].
  destruct t as [|c a k' u l r]; [easy|].
  cbn [locateArray]. rewrite (child_zero _ _ _ HR). cbn [rt].
  destruct (R_get _ _ _ _ _ _ _ _ HR) as [Hg Hn]. rewrite Hg. cbn [obind key lft rgt].
  cbn [flat] in *. assert (Hs' := Hs). apply ss_mid in Hs. destruct Hs as (Hs & Hs1 & Hs2).
  apply ss_app in Hs. destruct Hs as (Hsl & Hsr & _).
  rewrite keys_app, in_app_iff in Hk. cbn [keys map ky fst snd] in Hk.
  fold (keys (flat r)) in Hk. rewrite Forall_forall in *.
  destruct (Z.ltb_spec k k').
  - apply (IH l (FL c a k' u r :: z)); try easy.
    destruct Hk as [Hk|[Hk|Hk]]; [easy| |]; [cbn in Hk; lia|]. apply Hs2 in Hk. lia.
  - destruct (Z.ltb_spec k' k).
    + apply (IH r (FR c a k' u l :: z)); try easy.
      destruct Hk as [Hk|[Hk|Hk]]; [|cbn in Hk; lia|easy]. apply Hs1 in Hk. lia.
    + eapply locateArray_stuck; [exact Hn|unfold upd; now rewrite Z.eqb_refl|cbn; lia].
Qed.

Lemma registerArray_loops fuel s t a k :
  R s t -> ss (flat t) -> In k (keys (flat t)) -> registerArray fuel a k s = OutOfFuel.
Proof.
  intros HR Hs Hk. unfold registerArray. assert (Hroot : root s = rt t) by now destruct HR.
  rewrite Hroot.
  pose proof (locateArray_loops k s fuel t [] false HR Hs Hk) as H. cbn [pz] in H. now rewrite H.
Qed.

Lemma free_ok s t p : R s t -> ~ In p (map (fun x => fst (fst x)) (flat t)) ->
  R (St (fun q => if q =? p then None else heap s q) (root s)) t.
Proof.
  intros [[H1 H2] Hr] Hp. split; [|easy]. split; [easy|]. cbn [heap].
  rewrite Forall_forall in *. intros x Hx. destruct (H2 x Hx) as [A B]. split; [easy|].
  destruct (Z.eqb_spec (fst x) p) as [He|]; [|easy]. exfalso. apply Hp.
  rewrite <- addrs_flat. eapply Permutation_in; [apply (cells_addrs 0)|].
  rewrite <- He. now apply in_map.
Qed.

Lemma unregister_ok fuel s t k :
  R s t -> good t -> ss (flat t) -> (ht t + 2 <= fuel)%nat ->
  ok (unregister fuel k s) (fun s' => exists t', R s' t' /\ good t' /\ ss (flat t') /\
    ((~ In k (keys (flat t)) /\ flat t' = flat t) \/
     (exists A a u B, flat t = A ++ (a, k, u) :: B /\
        flat t' = if u - 1 =? 0 then A ++ B else A ++ (a, k, u - 1) :: B))).
Proof.
  intros HR Hg Hs Hf. unfold unregister.
  assert (Hroot : root s = rt t) by now destruct HR. rewrite Hroot.
  destruct (find_ok k s fuel t [] HR Hs) as
    [(z & c & a & u & l & r & E1 & E2)|(E1 & E2)];
    try (constructor || easy || lia); cbn [plug] in E1; rewrite E2; cbn [obind].
  - subst t. destruct (R_get _ _ _ _ _ _ _ _ HR) as [Hget Hn].
    rewrite (proj2 (Z.eqb_neq _ _) Hn), Hget. cbn [obind usage].
    bstep (R_usage s z c a k u l r (u - 1) HR). intros s1 H1.
    assert (Hg1 : good (plug z (T c a k (u - 1) l r))) by now apply good_usage with u.
    assert (Hs1 : ss (flat (plug z (T c a k (u - 1) l r))) /\ ss ((lz z ++ flat l) ++ flat r ++ rz z)).
    { assert (G : forall v, flat (plug z (T c a k v l r)) = (lz z ++ flat l) ++ (a, k, v) :: flat r ++ rz z)
        by (intros v; rewrite flat_plug; cbn [flat]; rewrite <- !app_assoc; reflexivity).
      revert Hs. rewrite !G, !ss_mid. easy. }
    destruct Hs1 as [Hs1 Hs2].
    destruct (Z.eqb_spec (u - 1) 0) as [E0|E0].
    + eapply ok_bind; [apply (erase_ok fuel s1 z c a k (u - 1) l r H1 Hg1)|].
      { assert (Heq : forall z v w, ht (plug z (T c a k v l r)) = ht (plug z (T c a k w l r))).
        { clear. intros z v w. enough (G : forall z t t', ht t = ht t' -> ht (plug z t) = ht (plug z t'))
            by now apply G.
          clear. induction z as [|f z IH]; intros t t' H; [easy|]. cbn. apply IH.
          destruct f; cbn; now rewrite H. }
        rewrite (Heq z (u - 1) u). exact Hf. }
      intros s2 (t2 & B1 & B2 & B3). apply ok_ret. exists t2.
      assert (Hfl : flat t2 = (lz z ++ flat l) ++ flat r ++ rz z) by (now rewrite B2, app_assoc).
      split.
      { apply free_ok; [exact B1|]. rewrite Hfl.
        pose proof (R_nodup _ _ HR) as Hd. rewrite addrs_flat, flat_plug in Hd. cbn [flat] in Hd.
        rewrite <- !app_assoc in Hd. cbn [app] in Hd. rewrite app_assoc in Hd.
        rewrite map_app in Hd. cbn [map fst] in Hd. apply NoDup_remove_2 in Hd.
        rewrite map_app. exact Hd. }
      split; [easy|]. split; [now rewrite Hfl|].
      right. exists (lz z ++ flat l), a, u, (flat r ++ rz z).
      split; [|now rewrite E0].
      rewrite flat_plug. cbn [flat]. rewrite <- !app_assoc. reflexivity.
    + apply ok_ret. exists (plug z (T c a k (u - 1) l r)). split; [easy|]. split; [easy|].
      split; [easy|]. right. exists (lz z ++ flat l), a, u, (flat r ++ rz z).
      rewrite (proj2 (Z.eqb_neq _ _) E0).
      rewrite !flat_plug. cbn [flat]. rewrite <- !app_assoc. easy.
  - cbn. apply ok_ret. exists t. auto 6.
Qed.

(** ** walking *)

(** address of the first entry; not code *)
Definition hda (L : list (Z * Z * Z)) : Z := match L with [] => 0 | (a, _, _) :: _ => a end.

Lemma flat_split t : forall A a k u B, flat t = A ++ (a, k, u) :: B ->
  exists z c l r, t = plug z (T c a k u l r) /\ A = lz z ++ flat l /\ B = flat r ++ rz z.
Proof.
  induction t as [|c a' k' u' l IHl r IHr]; intros A a k u B H; [now destruct A|].
  cbn [flat] in H. apply app_eq_app in H. destruct H as (M & [[H1 H2]|[H1 H2]]).
  - destruct M as [|m M].
    + rewrite app_nil_r in H1. cbn [app] in H2. injection H2 as ? ? ? ?. subst.
      exists [], c, l, r. cbn. rewrite app_nil_r. auto.
    + cbn [app] in H2. injection H2 as ? ?. subst m B.
      destruct (IHl A a k u M H1) as (z & c0 & l0 & r0 & -> & -> & ->).
      exists (z ++ [FL c a' k' u' r]), c0, l0, r0. rewrite plug_app, lz_app, rz_app. cbn.
      rewrite app_nil_r. rewrite <- app_assoc. auto.
  - destruct M as [|m M].
    + rewrite app_nil_r in H1. cbn [app] in H2. injection H2 as ? ? ? ?. subst.
      exists [], c, l, r. cbn. rewrite app_nil_r. auto.
    + cbn [app] in H2. injection H2 as ? H2. subst m.
      destruct (IHr M a k u B H2) as (z & c0 & l0 & r0 & -> & -> & ->).
      exists (z ++ [FR c a' k' u' l]), c0, l0, r0. rewrite plug_app, lz_app, rz_app. cbn.
      rewrite app_nil_r. subst A. rewrite <- !app_assoc. auto.
Qed.

Lemma climb_ok s : forall fuel z t, R s (plug z t) -> t <> E -> (length z < fuel)%nat ->
  climb fuel (rt t) (heap s) = Ok (hda (rz z)).
Proof.
  induction fuel as [|fuel IH]; intros z t HR Ht Hf; [lia|].
  destruct t as [|c a k u l r]; [easy|]. cbn [climb rt]. bget HR.
  destruct z as [|f z]; [reflexivity|]. cbn [pz].
  destruct f as [cf af kf uf q|cf af kf uf q]; cbn [fa].
  - assert (HRf : R s (plug z (T cf af kf uf (T c a k u l r) q))) by exact HR.
    bget HRf. rewrite (proj2 (Z.eqb_neq _ _) Hn0). cbn [rt]. now rewrite Z.eqb_refl.
  - assert (HRf : R s (plug z (T cf af kf uf q (T c a k u l r)))) by exact HR.
    bget HRf. rewrite (proj2 (Z.eqb_neq _ _) Hn0).
    assert (Hne : a <> rt q) by (intros He; now apply (R_left_ne _ _ _ _ _ _ _ _ HRf)).
    rewrite (proj2 (Z.eqb_neq _ _) Hne). cbn [rz].
    apply (IH z (T cf af kf uf q (T c a k u l r)) HRf); [easy|]. cbn in Hf. lia.
Qed.

Lemma hda_leftmost fuel t z s : R s (plug z t) -> t <> E -> (ht t <= fuel)%nat ->
  leftmost fuel (rt t) (heap s) = Ok (hda (flat t)).
Proof.
  intros HR Ht Hf. destruct (leftmost_ok fuel t z s HR Ht Hf) as
    (zs & cx & x & kx & ux & xr & E1 & E2 & E3). rewrite E3. f_equal.
  rewrite E1, flat_plug, E2. reflexivity.
Qed.

Lemma hda_app A B : A <> [] -> hda (A ++ B) = hda A.
Proof. now destruct A as [|[[? ?] ?] ?]. Qed.

Lemma next_ok fuel s z c a k u l r : R s (plug z (T c a k u l r)) ->
  (ht (plug z (T c a k u l r)) <= fuel)%nat ->
  next fuel a (heap s) = Ok (hda (flat r ++ rz z)).
Proof.
  intros HR Hf. pose proof (ht_plug z (T c a k u l r)) as Hh. cbn [ht] in Hh.
  unfold next. bget HR.
  assert (HRr : R s (plug (FR c a k u l :: z) r)) by exact HR.
  rewrite (child_zero _ _ _ HRr). destruct r as [|cr ar kr ur rl rr].
  - cbn [flat app]. apply (climb_ok s fuel z (T c a k u l E) HR); [easy|]. lia.
  - rewrite hda_app; [|cbn; now destruct (flat rl)].
    apply (hda_leftmost fuel _ _ _ HRr); [easy|]. lia.
Qed.

Lemma walk_ok s t : R s t -> forall B A fuel, flat t = A ++ B ->
  (length B < fuel)%nat -> (ht t <= fuel - length B)%nat ->
  walk fuel (hda B) (heap s) = Ok (keys B).
Proof.
  intros HR. induction B as [|[[a k] u] B IH]; intros A fuel Hfl Hf Hh.
  - destruct fuel; [lia|]. reflexivity.
  - destruct fuel as [|fuel]; [cbn in Hf; lia|]. cbn [length] in *.
    destruct (flat_split t A a k u B Hfl) as (z & c & l & r & E1 & E2 & E3).
    cbn [walk hda]. rewrite E1 in HR.
    destruct (R_get _ _ _ _ _ _ _ _ HR) as [Hg Hn].
    rewrite (proj2 (Z.eqb_neq _ _) Hn), Hg. cbn [obind key].
    rewrite (next_ok (S fuel) s z c a k u l r HR); [|rewrite <- E1; lia].
    cbn [obind]. rewrite <- E3.
    rewrite (IH (A ++ [(a, k, u)]) fuel); [reflexivity| |lia|lia].
    now rewrite <- app_assoc.
Qed.

Lemma traverse_ok s t fuel : R s t -> (length (flat t) + ht t < fuel)%nat ->
  traverse fuel s = Ok (keys (flat t)).
Proof.
  intros HR Hf. unfold traverse, first.
  assert (Hroot : root s = rt t) by now destruct HR. rewrite Hroot.
  rewrite (child_zero s [] t HR). destruct t as [|c a k u l r].
  - destruct fuel; [lia|]. reflexivity.
  - rewrite (hda_leftmost fuel _ [] s HR); [|easy|lia]. cbn [obind].
    apply (walk_ok s _ HR _ []); [reflexivity|lia|lia].
Qed.

(** ** height *)

Lemma rb_size t : forall n, rb t n -> (2 ^ n <= length (flat t) + 1)%nat.
Proof.
  induction t as [|c a k u l IHl r IHr]; intros n H.
  - cbn in H. subst n. reflexivity.
  - cbn [flat]. rewrite app_length. cbn [length]. destruct c; cbn [rb] in H.
    + destruct H as (H1 & H2 & _). apply IHl in H1. lia.
    + destruct H as (m & -> & H1 & H2). apply IHl in H1. apply IHr in H2.
      cbn [Nat.pow]. lia.
Qed.

Lemma rb_height t : forall n, rb t n -> (ht t <= 2 * n + if isr t then 1 else 0)%nat.
Proof.
  induction t as [|c a k u l IHl r IHr]; intros n H; [cbn; lia|].
  cbn [ht isr]. destruct c; cbn [rb] in H.
  - destruct H as (H1 & H2 & H3 & H4). apply IHl in H1. apply IHr in H2.
    rewrite H3 in H1. rewrite H4 in H2. lia.
  - destruct H as (m & -> & H1 & H2). apply IHl in H1. apply IHr in H2.
    destruct (isr l), (isr r); lia.
Qed.

Lemma good_height t : good t -> (ht t <= 2 * Nat.log2 (length (flat t) + 1))%nat.
Proof.
  intros [Hb [n Hr]]. pose proof (rb_size _ _ Hr) as H1. pose proof (rb_height _ _ Hr) as H2.
  rewrite Hb in H2. apply Nat.log2_le_mono in H1. rewrite Nat.log2_pow2 in H1 by lia. lia.
Qed.
