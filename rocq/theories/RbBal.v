(** Balance: the loops of rb_rebalance and rb_erase_rebalance on trees laid
    out in memory. *)
From Coq Require Import ZArith List Bool Lia Permutation ZifyBool.
From Verif Require Import Base RbTree RbHeap.
Import ListNotations.
Local Open Scope Z_scope.

(** the entries in order: address, key, usage; not code *)
Fixpoint flat (t : tree) : list (Z * Z * Z) :=
  match t with E => [] | T _ a k u l r => flat l ++ (a, k, u) :: flat r end.
(** what comes before a hole; not code *)
Fixpoint lz (z : zip) : list (Z * Z * Z) :=
  match z with
  | [] => [] | FL _ _ _ _ _ :: z => lz z
  | FR _ a k u l :: z => lz z ++ flat l ++ [(a, k, u)]
  end.
(** what comes after a hole; not code *)
Fixpoint rz (z : zip) : list (Z * Z * Z) :=
  match z with
  | [] => [] | FL _ a k u r :: z => (a, k, u) :: flat r ++ rz z
  | FR _ _ _ _ _ :: z => rz z
  end.

Lemma flat_plug z t : flat (plug z t) = lz z ++ flat t ++ rz z.
Proof.
  revert t. induction z as [|f z IH]; intros t; cbn; [now rewrite app_nil_r|].
  rewrite IH. destruct f; cbn; rewrite <- ?app_assoc; cbn; rewrite <- ?app_assoc; reflexivity.
Qed.
Lemma addrs_flat t : addrs t = map (fun x => fst (fst x)) (flat t).
Proof.
  induction t as [|c a k u l IHl r IHr]; [reflexivity|]. cbn. now rewrite map_app, IHl, IHr.
Qed.
Lemma lz_app z z' : lz (z ++ z') = lz z' ++ lz z.
Proof.
  induction z as [|f z IH]; cbn; [now rewrite app_nil_r|].
  destruct f; rewrite IH; [easy|]. now rewrite <- app_assoc.
Qed.
Lemma rz_app z z' : rz (z ++ z') = rz z ++ rz z'.
Proof.
  induction z as [|f z IH]; cbn; [easy|].
  destruct f; rewrite IH; [|easy]. cbn. now rewrite <- app_assoc.
Qed.

(** red-black with black height [n]; not code *)
Fixpoint rb (t : tree) (n : nat) : Prop :=
  match t with
  | E => n = 0%nat
  | T true _ _ _ l r => rb l n /\ rb r n /\ isr l = false /\ isr r = false
  | T false _ _ _ l r => exists m, n = S m /\ rb l m /\ rb r m
  end.

(** colour of a frame and the subtree it holds; not code *)
Definition fred (f : frame) : bool := match f with FL c _ _ _ _ | FR c _ _ _ _ => c end.
(** not code *)
Definition fsub (f : frame) : tree := match f with FL _ _ _ _ t | FR _ _ _ _ t => t end.
(** the innermost frame exists and is black; not code *)
Definition cbl (z : zip) : Prop := match z with [] => False | f :: _ => fred f = false end.

(** a context for a subtree of black height [n]; not code *)
Fixpoint cok (z : zip) (n : nat) : Prop :=
  match z with
  | [] => True
  | f :: z =>
    rb (fsub f) n /\
    if fred f then isr (fsub f) = false /\ cbl z /\ cok z n else cok z (S n)
  end.

(** a red-black tree with a black root; not code *)
Definition good (t : tree) : Prop := isr t = false /\ exists n, rb t n.

Lemma rb_plug z t n : cok z n -> rb t n -> (z = [] \/ cbl z \/ isr t = false) ->
  exists n', rb (plug z t) n'.
Proof.
  revert t n. induction z as [|f z IH]; intros t n Hc Ht Hr; [now exists n|].
  cbn [plug]. destruct Hc as [Hs Hc]. destruct f as [c a k u q|c a k u q]; cbn [fred fsub] in *;
    destruct c.
  - destruct Hc as (H1 & H2 & H3). apply IH with n; [easy| |tauto].
    cbn. destruct Hr as [?|[Hr|Hr]]; try easy.
  - apply IH with (S n); [easy| |right; now right]. cbn. now exists n.
  - destruct Hc as (H1 & H2 & H3). apply IH with n; [easy| |tauto].
    cbn. destruct Hr as [?|[Hr|Hr]]; try easy.
  - apply IH with (S n); [easy| |right; now right]. cbn. now exists n.
Qed.

Lemma isr_plug z t n : cok z n -> z <> [] -> isr (plug z t) = false.
Proof.
  revert t n. induction z as [|f z IH]; intros t n Hc Hz; [easy|]. cbn [plug].
  destruct z as [|g z].
  - cbn in *. destruct Hc as [_ Hc]. destruct f as [c ? ? ? ?|c ? ? ? ?]; cbn in *; destruct c;
      tauto.
  - destruct Hc as [_ Hc]. destruct (fred f).
    + destruct Hc as (_ & _ & Hc). now apply IH with n.
    + now apply IH with (S n).
Qed.

Lemma good_plug z t n : cok z n -> rb t n -> (isr t = false \/ cbl z) -> good (plug z t).
Proof.
  intros Hc Ht Hr. split; [|apply rb_plug with n; tauto].
  destruct z as [|f z]; [destruct Hr; easy|]. now apply isr_plug with n.
Qed.

Lemma rb_blacken t n : rb t n -> exists n', rb (blacken t) n'.
Proof.
  destruct t as [|[] a k u l r]; cbn; intros H; [now exists n| |now exists n].
  destruct H as (H1 & H2 & _). exists (S n). now exists n.
Qed.
Lemma isr_blacken t : isr (blacken t) = false.
Proof. now destruct t. Qed.
Lemma rb_blacken_red t n : rb t n -> isr t = true -> rb (blacken t) (S n).
Proof.
  destruct t as [|[] a k u l r]; cbn; intros H Hr; try easy.
  destruct H as (H1 & H2 & _). now exists n.
Qed.
Lemma flat_blacken t : flat (blacken t) = flat t.
Proof. now destruct t. Qed.

Ltac flatten :=
  rewrite ?flat_plug in *; cbn [flat lz rz blacken] in *;
  repeat (rewrite <- ?app_assoc in *; cbn [app] in *).

(** one step of a computation *)
Ltac bstep L := eapply ok_bind; [eapply L|].
Ltac bget H := let Hg := fresh "Hg" in let Hn := fresh "Hn" in
  destruct (R_get _ _ _ _ _ _ _ _ H) as [Hg Hn]; rewrite Hg; cbn [obind par lft rgt red].

(** *** insertion *)
Lemma rebalanceLoop_ok fuel : forall z s x k u l r n,
  R s (plug z (T true x k u l r)) -> rb (T true x k u l r) n -> cok z n ->
  (length z + 2 <= fuel)%nat ->
  ok (rebalanceLoop fuel x s) (fun s' => exists t',
    R s' t' /\ flat t' = flat (plug z (T true x k u l r)) /\ t' <> E /\ exists n', rb t' n').
Proof.
  induction fuel as [|fuel IH]; intros z s x k u l r n HR Hb Hc Hf; [lia|].
  cbn [rebalanceLoop]. bget HR.
  destruct z as [|f z].
  { cbn [pz]. cbn [Z.eqb]. apply ok_ret. exists (T true x k u l r).
    split; [exact HR|]. split; [easy|]. split; [easy|]. now exists n. }
  assert (Hfin : cbl (f :: z) -> exists t', R s t' /\
     flat t' = flat (plug (f :: z) (T true x k u l r)) /\ t' <> E /\ exists n', rb t' n').
  { intros Hcb. exists (plug (f :: z) (T true x k u l r)). split; [exact HR|].
    split; [easy|]. split; [|now apply rb_plug with n; tauto].
    clear. intros He. assert (Hl : flat (plug (f :: z) (T true x k u l r)) = []) by now rewrite He.
    rewrite flat_plug in Hl. apply app_eq_nil in Hl. destruct Hl as [_ Hl]. cbn in Hl.
    rewrite <- app_assoc in Hl. now apply app_eq_nil in Hl. }
  destruct f as [c p kp up q|c p kp up q]; cbn [pz fa].
  - (* left child *)
    assert (HRp : R s (plug z (T c p kp up (T true x k u l r) q))) by exact HR.
    destruct (R_get _ _ _ _ _ _ _ _ HRp) as [Hgp Hnp].
    destruct (Z.eqb_spec p 0); [easy|]. rewrite Hgp. cbn [obind red].
    destruct c; cbn [negb]; [|apply ok_ret; now apply Hfin]. clear Hfin.
    destruct Hc as [Hq Hc]. cbn [fred fsub] in *. destruct Hc as (Hqb & Hcb & Hc).
    destruct z as [|g z]; [easy|]. cbn [cbl] in Hcb. destruct Hb as (Hl & Hr & Hlb & Hrb).
    destruct g as [c g kg ug w|c g kg ug w]; cbn [fred] in Hcb; subst c;
      cbn [pz fa par].
    + (* parent is a left child *)
      destruct Hc as [Hw Hc]. cbn [fred fsub] in *.
      assert (HRg : R s (plug z (T false g kg ug (T true p kp up (T true x k u l r) q) w)))
        by exact HR.
      bget HRg. cbn [rt]. rewrite Z.eqb_refl.
      rewrite (R_isr s (FR false g kg ug (T true p kp up (T true x k u l r) q) :: z) w HRg).
      cbn [obind]. destruct (isr w) eqn:Ew.
      * destruct w as [|cw w kw uw wl wr]; [easy|]. cbn in Ew. subst cw. cbn [rt].
        bstep (R_color s (FR false g kg ug (T true p kp up (T true x k u l r) q) :: z) true w kw uw wl wr false HRg).
        intros s1 H1.
        bstep (R_color s1 (FL false g kg ug (T false w kw uw wl wr) :: z) true p kp up (T true x k u l r) q false H1).
        intros s2 H2.
        bstep (R_color s2 z false g kg ug (T false p kp up (T true x k u l r) q) (T false w kw uw wl wr) true H2).
        intros s3 H3.
        eapply ok_mono; [apply (IH z s3 g kg ug _ _ (S n) H3)|].
        -- cbn in Hw |- *. destruct Hw as (Hw1 & Hw2 & Hw3 & Hw4).
           repeat split; exists n; cbn; tauto.
        -- easy.
        -- cbn in Hf. lia.
        -- intros s' (t' & A1 & A2 & A3). exists t'. split; [easy|]. split; [|easy].
           rewrite A2. flatten. reflexivity.
      * cbn [obind lft rgt].
        assert (Hne : (rt q =? x) = false).
        { apply Z.eqb_neq. intros He. destruct q as [|cq aq kq uq ql qr]; cbn in He; [congruence|].
          subst aq. apply (R_left_ne _ _ _ _ _ _ _ _ HRp); easy. }
        rewrite Hne. cbn [obind].
        bstep (R_color s (FL false g kg ug w :: z) true p kp up (T true x k u l r) q false HR).
        intros s1 H1.
        bstep (R_color s1 z false g kg ug (T false p kp up (T true x k u l r) q) w true H1).
        intros s2 H2.
        bstep (rotateRight_ok s2 z true g kg ug (T true x k u l r) false p kp up q w H2).
        intros s3 H3.
        eapply ok_mono; [apply (IH (FL false p kp up (T true g kg ug q w) :: z) s3 x k u l r n H3)|].
        -- cbn; tauto.
        -- cbn; tauto.
        -- cbn in Hf |- *. lia.
        -- intros s' (t' & A1 & A2 & A3). exists t'. split; [easy|]. split; [|easy].
           rewrite A2. flatten. reflexivity.
    + (* parent is a right child *)
      destruct Hc as [Hw Hc]. cbn [fred fsub] in *.
      assert (HRg : R s (plug z (T false g kg ug w (T true p kp up (T true x k u l r) q))))
        by exact HR.
      bget HRg. cbn [rt].
      assert (Hne : (p =? rt w) = false).
      { apply Z.eqb_neq. intros He. now apply (R_left_ne _ _ _ _ _ _ _ _ HRg). }
      rewrite Hne.
      rewrite (R_isr s (FL false g kg ug (T true p kp up (T true x k u l r) q) :: z) w HRg).
      cbn [obind]. destruct (isr w) eqn:Ew.
      * destruct w as [|cw w kw uw wl wr]; [easy|]. cbn in Ew. subst cw. cbn [rt].
        bstep (R_color s (FL false g kg ug (T true p kp up (T true x k u l r) q) :: z) true w kw uw wl wr false HRg).
        intros s1 H1.
        bstep (R_color s1 (FR false g kg ug (T false w kw uw wl wr) :: z) true p kp up (T true x k u l r) q false H1).
        intros s2 H2.
        bstep (R_color s2 z false g kg ug (T false w kw uw wl wr) (T false p kp up (T true x k u l r) q) true H2).
        intros s3 H3.
        eapply ok_mono; [apply (IH z s3 g kg ug _ _ (S n) H3)|].
        -- cbn in Hw |- *. destruct Hw as (Hw1 & Hw2 & Hw3 & Hw4).
           repeat split; exists n; cbn; tauto.
        -- easy.
        -- cbn in Hf. lia.
        -- intros s' (t' & A1 & A2 & A3). exists t'. split; [easy|]. split; [|easy].
           rewrite A2. flatten. reflexivity.
      * cbn [obind lft rgt]. cbn [rt]. rewrite Z.eqb_refl.
        eapply ok_bind.
        { bstep (rotateRight_ok s (FR false g kg ug w :: z) true p kp up l true x k u r q HR).
          intros s0 H0. apply ok_ret.
          instantiate (1 := fun xps => exists s0, xps = (p, x, s0) /\ R s0
             (plug (FR false g kg ug w :: z) (T true x k u l (T true p kp up r q)))).
          now exists s0. }
        intros [[x' p'] s'] (s0 & E0 & H0). injection E0 as -> -> ->.
        bstep (R_color s0 (FR false g kg ug w :: z) true x k u l (T true p kp up r q) false H0).
        intros s1 H1.
        bstep (R_color s1 z false g kg ug w (T false x k u l (T true p kp up r q)) true H1).
        intros s2 H2.
        bstep (rotateLeft_ok s2 z true g kg ug w false x k u l (T true p kp up r q) H2).
        intros s3 H3.
        eapply ok_mono; [apply (IH (FR false x k u (T true g kg ug w l) :: z) s3 p kp up r q n H3)|].
        -- cbn; tauto.
        -- cbn; tauto.
        -- cbn in Hf |- *. lia.
        -- intros s' (t' & A1 & A2 & A3). exists t'. split; [easy|]. split; [|easy].
           rewrite A2. flatten. reflexivity.
  - (* right child *)
    assert (HRp : R s (plug z (T c p kp up q (T true x k u l r)))) by exact HR.
    destruct (R_get _ _ _ _ _ _ _ _ HRp) as [Hgp Hnp].
    destruct (Z.eqb_spec p 0); [easy|]. rewrite Hgp. cbn [obind red].
    destruct c; cbn [negb]; [|apply ok_ret; now apply Hfin]. clear Hfin.
    destruct Hc as [Hq Hc]. cbn [fred fsub] in *. destruct Hc as (Hqb & Hcb & Hc).
    destruct z as [|g z]; [easy|]. cbn [cbl] in Hcb. destruct Hb as (Hl & Hr & Hlb & Hrb).
    destruct g as [c g kg ug w|c g kg ug w]; cbn [fred] in Hcb; subst c;
      cbn [pz fa par].
    + (* parent is a left child *)
      destruct Hc as [Hw Hc]. cbn [fred fsub] in *.
      assert (HRg : R s (plug z (T false g kg ug (T true p kp up q (T true x k u l r)) w)))
        by exact HR.
      bget HRg. cbn [rt]. rewrite Z.eqb_refl.
      rewrite (R_isr s (FR false g kg ug (T true p kp up q (T true x k u l r)) :: z) w HRg).
      cbn [obind]. destruct (isr w) eqn:Ew.
      * destruct w as [|cw w kw uw wl wr]; [easy|]. cbn in Ew. subst cw. cbn [rt].
        bstep (R_color s (FR false g kg ug (T true p kp up q (T true x k u l r)) :: z) true w kw uw wl wr false HRg).
        intros s1 H1.
        bstep (R_color s1 (FL false g kg ug (T false w kw uw wl wr) :: z) true p kp up q (T true x k u l r) false H1).
        intros s2 H2.
        bstep (R_color s2 z false g kg ug (T false p kp up q (T true x k u l r)) (T false w kw uw wl wr) true H2).
        intros s3 H3.
        eapply ok_mono; [apply (IH z s3 g kg ug _ _ (S n) H3)|].
        -- cbn in Hw |- *. destruct Hw as (Hw1 & Hw2 & Hw3 & Hw4).
           repeat split; exists n; cbn; tauto.
        -- easy.
        -- cbn in Hf. lia.
        -- intros s' (t' & A1 & A2 & A3). exists t'. split; [easy|]. split; [|easy].
           rewrite A2. flatten. reflexivity.
      * cbn [obind lft rgt]. cbn [rt]. rewrite Z.eqb_refl.
        eapply ok_bind.
        { bstep (rotateLeft_ok s (FL false g kg ug w :: z) true p kp up q true x k u l r HR).
          intros s0 H0. apply ok_ret.
          instantiate (1 := fun xps => exists s0, xps = (p, x, s0) /\ R s0
             (plug (FL false g kg ug w :: z) (T true x k u (T true p kp up q l) r))).
          now exists s0. }
        intros [[x' p'] s'] (s0 & E0 & H0). injection E0 as -> -> ->.
        bstep (R_color s0 (FL false g kg ug w :: z) true x k u (T true p kp up q l) r false H0).
        intros s1 H1.
        bstep (R_color s1 z false g kg ug (T false x k u (T true p kp up q l) r) w true H1).
        intros s2 H2.
        bstep (rotateRight_ok s2 z true g kg ug (T true p kp up q l) false x k u r w H2).
        intros s3 H3.
        eapply ok_mono; [apply (IH (FL false x k u (T true g kg ug r w) :: z) s3 p kp up q l n H3)|].
        -- cbn; tauto.
        -- cbn; tauto.
        -- cbn in Hf |- *. lia.
        -- intros s' (t' & A1 & A2 & A3). exists t'. split; [easy|]. split; [|easy].
           rewrite A2. flatten. reflexivity.
    + (* parent is a right child *)
      destruct Hc as [Hw Hc]. cbn [fred fsub] in *.
      assert (HRg : R s (plug z (T false g kg ug w (T true p kp up q (T true x k u l r)))))
        by exact HR.
      bget HRg. cbn [rt].
      assert (Hne : (p =? rt w) = false).
      { apply Z.eqb_neq. intros He. now apply (R_left_ne _ _ _ _ _ _ _ _ HRg). }
      rewrite Hne.
      rewrite (R_isr s (FL false g kg ug (T true p kp up q (T true x k u l r)) :: z) w HRg).
      cbn [obind]. destruct (isr w) eqn:Ew.
      * destruct w as [|cw w kw uw wl wr]; [easy|]. cbn in Ew. subst cw. cbn [rt].
        bstep (R_color s (FL false g kg ug (T true p kp up q (T true x k u l r)) :: z) true w kw uw wl wr false HRg).
        intros s1 H1.
        bstep (R_color s1 (FR false g kg ug (T false w kw uw wl wr) :: z) true p kp up q (T true x k u l r) false H1).
        intros s2 H2.
        bstep (R_color s2 z false g kg ug (T false w kw uw wl wr) (T false p kp up q (T true x k u l r)) true H2).
        intros s3 H3.
        eapply ok_mono; [apply (IH z s3 g kg ug _ _ (S n) H3)|].
        -- cbn in Hw |- *. destruct Hw as (Hw1 & Hw2 & Hw3 & Hw4).
           repeat split; exists n; cbn; tauto.
        -- easy.
        -- cbn in Hf. lia.
        -- intros s' (t' & A1 & A2 & A3). exists t'. split; [easy|]. split; [|easy].
           rewrite A2. flatten. reflexivity.
      * cbn [obind lft rgt].
        assert (Hne' : (rt q =? x) = false).
        { apply Z.eqb_neq. now apply (R_left_ne _ _ _ _ _ _ _ _ HRp). }
        rewrite Hne'. cbn [obind].
        bstep (R_color s (FR false g kg ug w :: z) true p kp up q (T true x k u l r) false HR).
        intros s1 H1.
        bstep (R_color s1 z false g kg ug w (T false p kp up q (T true x k u l r)) true H1).
        intros s2 H2.
        bstep (rotateLeft_ok s2 z true g kg ug w false p kp up q (T true x k u l r) H2).
        intros s3 H3.
        eapply ok_mono; [apply (IH (FR false p kp up (T true g kg ug w q) :: z) s3 x k u l r n H3)|].
        -- cbn; tauto.
        -- cbn; tauto.
        -- cbn in Hf |- *. lia.
        -- intros s' (t' & A1 & A2 & A3). exists t'. split; [easy|]. split; [|easy].
           rewrite A2. flatten. reflexivity.
Qed.

Lemma rebalance_ok fuel z s x k u l r n c :
  R s (plug z (T c x k u l r)) -> rb (T true x k u l r) n -> cok z n ->
  (length z + 2 <= fuel)%nat ->
  ok (rebalance fuel x s) (fun s' => exists t',
    R s' t' /\ flat t' = flat (plug z (T c x k u l r)) /\ good t').
Proof.
  intros HR Hb Hc Hf. unfold rebalance.
  bstep (R_color s z c x k u l r true HR). intros s1 H1.
  bstep (rebalanceLoop_ok fuel z s1 x k u l r n H1 Hb Hc Hf).
  intros s2 (t2 & H2 & Hfl & Ht & n2 & Hb2).
  destruct t2 as [|c2 a2 k2 u2 l2 r2]; [easy|].
  destruct H2 as [H2a H2b]. rewrite H2b. cbn [rt].
  eapply ok_mono.
  - apply (R_color s2 [] c2 a2 k2 u2 l2 r2 false). now split.
  - intros s3 H3. exists (T false a2 k2 u2 l2 r2). split; [exact H3|]. split.
    + rewrite !flat_plug in Hfl |- *. cbn in *. exact Hfl.
    + split; [easy|]. destruct (rb_blacken _ _ Hb2) as [n' Hn']. now exists n'.
Qed.
