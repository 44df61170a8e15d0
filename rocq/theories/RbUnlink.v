(** rb_erase on trees laid out in memory. *)
From Coq Require Import ZArith List Bool Lia Permutation ZifyBool.
From Verif Require Import Base RbTree RbHeap RbBal RbErase.
Import ListNotations.
Local Open Scope Z_scope.

(** number of levels; not code *)
Fixpoint ht (t : tree) : nat :=
  match t with E => 0 | T _ _ _ _ l r => S (Nat.max (ht l) (ht r)) end.

Lemma ht_plug z t : (length z + ht t <= ht (plug z t))%nat.
Proof.
  revert t. induction z as [|f z IH]; intros t; [reflexivity|]. cbn [plug length].
  specialize (IH (put f t)). destruct f; cbn [put ht] in *; lia.
Qed.

Lemma unplug z t N : rb (plug z t) N -> isr (plug z t) = false ->
  exists n, rb t n /\ cok z n /\ (isr t = true -> cbl z).
Proof.
  revert t. induction z as [|f z IH]; intros t Hr Hb.
  - exists N. cbn in *. repeat split; try easy. intros H. rewrite H in Hb. easy.
  - cbn [plug] in *. destruct (IH _ Hr Hb) as (n & H1 & H2 & H3).
    destruct f as [c a k u q|c a k u q]; cbn [put] in *; destruct c; cbn [rb isr] in *.
    + exists n. destruct H1 as (A1 & A2 & A3 & A4). cbn. repeat split; auto.
      intros H. rewrite H in A3. easy.
    + destruct H1 as (m & -> & A1 & A2). exists m. cbn. auto.
    + exists n. destruct H1 as (A1 & A2 & A3 & A4). cbn. repeat split; auto.
      intros H. rewrite H in A4. easy.
    + destruct H1 as (m & -> & A1 & A2). exists m. cbn. auto.
Qed.

Lemma leftmost_ok fuel : forall t z s, R s (plug z t) -> t <> E -> (ht t <= fuel)%nat ->
  exists zs cx x kx ux xr, t = plug zs (T cx x kx ux E xr) /\ lz zs = [] /\
    leftmost fuel (rt t) (heap s) = Ok x.
Proof.
  induction fuel as [|fuel IH]; intros t z s HR Ht Hf.
  - destruct t; [easy|]. cbn in Hf. lia.
  - destruct t as [|c a k u l r]; [easy|]. cbn [leftmost rt].
    destruct (R_get _ _ _ _ _ _ _ _ HR) as [Hg Hn]. rewrite Hg. cbn [obind lft].
    destruct l as [|cl al kl ul ll lr].
    + cbn. exists [], c, a, k, u, r. auto.
    + destruct (R_get s (FL c a k u r :: z) cl al kl ul ll lr HR) as [_ Hnl].
      destruct (IH (T cl al kl ul ll lr) (FL c a k u r :: z) s HR) as
        (zs & cx & x & kx & ux & xr & E1 & E2 & E3); [easy|cbn [ht] in *; lia|].
      exists (zs ++ [FL c a k u r]), cx, x, kx, ux, xr.
      split; [rewrite plug_app, <- E1; reflexivity|]. split; [now rewrite lz_app, E2|].
      cbn [rt] in *. destruct (Z.eqb_spec al 0); [easy|]. exact E3.
Qed.

(** one child at most *)
Lemma unlink1 s z c x k u l r ch :
  R s (plug z (T c x k u l r)) -> (l = E /\ ch = r \/ r = E /\ ch = l) ->
  ok (olet m := setParIf (rt ch) (pz 0 z) (heap s) in relink (pz 0 z) x (rt ch) (St m (root s)))
     (fun s' => R s' (plug z ch)).
Proof.
  intros HR Hch. destruct (R_hp _ _ _ HR) as [H0 Hr]. cbn [rt] in *.
  assert (H1 : hp (heap s) (cells x ch ++ cctx 0 z x ++ [(x, Nd (pz 0 z) (rt l) (rt r) c k u)])).
  { destruct Hch as [[-> ->]|[-> ->]]; hperm H0. }
  bstep setParIf_ok; [exact H1|]. intros m1 H2.
  assert (H3 : hp m1 (cctx 0 z x ++ (x, Nd (pz 0 z) (rt l) (rt r) c k u) :: cells (pz 0 z) ch))
    by hperm H2.
  eapply ok_mono; [eapply relink_ok; [exact H3|eexists; left; reflexivity]|].
  intros [m2 r2] [H4 Hr2]. cbn [heap root] in *.
  apply hp_R.
  - apply hp_sub with (L' := [(x, Nd (pz 0 z) (rt l) (rt r) c k u)]). hperm H4.
  - rewrite Hr2. destruct z; [reflexivity|]. exact Hr.
Qed.

Lemma pz_app p z z' : pz p (z ++ z') = pz (pz p z') z.
Proof. now destruct z. Qed.

Lemma erase_ok fuel s z c x k u l r :
  R s (plug z (T c x k u l r)) -> good (plug z (T c x k u l r)) ->
  (ht (plug z (T c x k u l r)) + 2 <= fuel)%nat ->
  ok (erase fuel x s) (fun s' => exists t',
    R s' t' /\ flat t' = lz z ++ flat l ++ flat r ++ rz z /\ good t').
Proof.
  intros HR [Hgb [N Hgr]] Hf.
  assert (Hht := ht_plug z (T c x k u l r)).
  destruct (unplug _ _ _ Hgr Hgb) as (n & Hb & Hc & Hcb).
  unfold erase. bget HR.
  assert (El : (rt l =? 0) = match l with E => true | _ => false end).
  { destruct l as [|cl al kl ul ll lr]; [reflexivity|].
    destruct (R_get s (FL c x k u r :: z) cl al kl ul ll lr HR) as [_ Hnl]. now apply Z.eqb_neq. }
  assert (Er : (rt r =? 0) = match r with E => true | _ => false end).
  { destruct r as [|cl al kl ul ll lr]; [reflexivity|].
    destruct (R_get s (FR c x k u l :: z) cl al kl ul ll lr HR) as [_ Hnl]. now apply Z.eqb_neq. }
  destruct ((rt l =? 0) || (rt r =? 0)) eqn:E1.
  { (* at most one child *)
    assert (Hch : exists ch, (if rt l =? 0 then rt r else rt l) = rt ch /\
              (l = E /\ ch = r \/ r = E /\ ch = l)).
    { destruct l as [|cl al kl ul ll lr]; [exists r; cbn; auto|].
      exists (T cl al kl ul ll lr). rewrite El. split; [easy|]. right. split; [|easy].
      destruct r; [easy|]. rewrite El, Er in E1. easy. }
    destruct Hch as (ch & -> & Hch).
    pose proof (unlink1 s z c x k u l r ch HR Hch) as Hu.
    assert (Hfl : flat (plug z ch) = lz z ++ flat l ++ flat r ++ rz z).
    { rewrite flat_plug. destruct Hch as [[-> ->]|[-> ->]]; reflexivity. }
    destruct (setParIf (rt ch) (pz 0 z) (heap s)) as [m1| | | |] eqn:Em; cbn [obind] in Hu |- *;
      try (destruct Hu as (? & Hu & _); discriminate).
    eapply ok_bind; [exact Hu|]. intros s1 H1.
    destruct c.
    - apply ok_ret. exists (plug z ch). split; [exact H1|]. split; [exact Hfl|].
      destruct Hb as (B1 & B2 & B3 & B4).
      apply good_plug with n; [easy| |right; now apply Hcb].
      destruct Hch as [[-> ->]|[-> ->]]; easy.
    - destruct Hb as (m & -> & B1 & B2).
      eapply ok_mono; [apply (eraseRebalance_ok fuel z s1 ch m H1)|].
      + destruct Hch as [[-> ->]|[-> ->]]; easy.
      + exact Hc.
      + cbn [ht] in Hht. lia.
      + intros s' (t' & A1 & A2 & A3). exists t'. split; [easy|]. split; [|easy]. congruence. }
  (* two children *)
  assert (Hl : l <> E) by (intros ->; rewrite El in E1; easy).
  assert (Hr : r <> E) by (intros ->; rewrite Er in E1; now rewrite orb_true_r in E1).
  clear El Er E1. rename x into old.
  destruct (leftmost_ok fuel r (FR c old k u l :: z) s HR Hr) as
    (zs & cx & x & kx & ux & xr & Er & Elz & Hlm).
  { cbn [ht] in Hht. lia. }
  rewrite Hlm. cbn [obind].
  assert (HRx : R s (plug (zs ++ FR c old k u l :: z) (T cx x kx ux E xr))).
  { rewrite plug_app, <- Er. exact HR. }
  set (z1 := zs ++ FR c old k u l :: z) in *.
  destruct (R_get _ _ _ _ _ _ _ _ HRx) as [Hgx Hnx].
  rewrite Hgx. cbn [obind par lft rgt red].
  pose proof (unlink1 s z1 cx x kx ux E xr xr HRx (or_introl (conj eq_refl eq_refl))) as Hu0.
  clear Hu0.
  destruct (R_hp _ _ _ HRx) as [H0 Hroot]. cbn [rt] in *.
  assert (H1 : hp (heap s) (cells x xr ++ cctx 0 z1 x ++ [(x, Nd (pz 0 z1) 0 (rt xr) cx kx ux)]))
    by hperm H0.
  bstep setParIf_ok; [exact H1|]. intros m1 H2.
  assert (H3 : hp m1 (cctx 0 z1 x ++ (x, Nd (pz 0 z1) 0 (rt xr) cx kx ux) :: cells (pz 0 z1) xr))
    by hperm H2.
  bstep relink_ok; [exact H3|eexists; left; reflexivity|].
  intros [m2 r2] [H4 Hr2]. cbn [heap root] in *.
  assert (Hz1 : z1 <> []) by (unfold z1; now destruct zs).
  assert (Hr2' : r2 = root s) by (rewrite Hr2; now destruct z1).
  clear Hr2. subst r2.
  (* split the path at the node erased *)
  assert (Hz1p : pz 0 z1 = pz old zs).
  { unfold z1. now rewrite pz_app. }
  rewrite Hz1p in *.
  assert (H5 : hp m2 ((x, Nd (pz old zs) 0 (rt xr) cx kx ux) ::
      (old, Nd (pz 0 z) (rt l) (top zs (rt xr)) c k u) ::
      cells old l ++ cctx 0 z old ++ cctx old zs (rt xr) ++ cells (pz old zs) xr)).
  { eapply hp_perm; [exact H4|]. apply cn_perm. intros y.
    pose proof (perm_cn _ _ (cctx_app 0 zs (FR c old k u l :: z) (rt xr)) y) as Hy.
    fold z1 in Hy. cbn [cctx pz fa] in Hy.
    repeat rewrite ?cn_app, ?cn_cons, ?cn_nil in *. lia. }
  assert (H6 : hp m2 ((x, Nd (pz old zs) 0 (rt xr) cx kx ux) ::
      (old, Nd (pz 0 z) (rt l) (rt (plug zs xr)) c k u) ::
      cells old l ++ cctx 0 z old ++ cells old (plug zs xr))).
  { rewrite rt_plug. eapply hp_perm; [exact H5|]. apply cn_perm. intros y.
    pose proof (perm_cn _ _ (cells_plug old zs xr) y) as Hy.
    repeat rewrite ?cn_app, ?cn_cons, ?cn_nil in *. lia. }
  assert (Hpar : (if pz old zs =? old then x else pz old zs)
                 = pz 0 (zs ++ FR c x kx ux l :: z)).
  { rewrite pz_app. cbn [pz fa]. destruct zs as [|f zs]; cbn [pz]; [now rewrite Z.eqb_refl|].
    destruct (Z.eqb_spec (fa f) old) as [He|]; [|easy]. exfalso.
    destruct f as [cf af kf uf q|cf af kf uf q]; cbn [fa] in He; subst af; cbn [cctx] in H5.
    - match type of H5 with hp _ (?a :: (old, ?b) :: ?X ++ ?Y ++ ((old, ?d) :: ?V) ++ ?W) =>
        assert (H7 : hp m2 ((old, b) :: (old, d) :: a :: X ++ Y ++ V ++ W)) by hperm H5 end.
      now apply hp_neq in H7.
    - match type of H5 with hp _ (?a :: (old, ?b) :: ?X ++ ?Y ++ ((old, ?d) :: ?V) ++ ?W) =>
        assert (H7 : hp m2 ((old, b) :: (old, d) :: a :: X ++ Y ++ V ++ W)) by hperm H5 end.
      now apply hp_neq in H7. }
  clear H5. set (r' := plug zs xr) in *.
  destruct (hp_get _ _ _ _ H6) as [Hgx2 _]. rewrite Hgx2. cbn [obind par].
  rewrite Hpar.
  destruct (hp_in _ old _ _ H6 (or_intror (or_introl eq_refl))) as [Hgo _].
  rewrite Hgo. cbn [obind par lft rgt red].
  bstep setPar_ok; [exact H6|]. cbn [par lft rgt red key usage]. intros m3 H7.
  bstep setC_ok; [exact H7|]. cbn [par lft rgt red key usage]. intros m4 H8.
  bstep setR_ok; [exact H8|]. cbn [par lft rgt red key usage]. intros m5 H9.
  bstep setL_ok; [exact H9|]. cbn [par lft rgt red key usage]. intros m6 H10.
  assert (H11 : hp m6 (cctx 0 z old ++ (old, Nd (pz 0 z) (rt l) (rt r') c k u) ::
     (x, Nd (pz 0 z) (rt l) (rt r') c kx ux) :: cells old l ++ cells old r')) by hperm H10.
  bstep relink_ok; [exact H11|eexists; left; reflexivity|].
  intros [m7 r7] [H12 Hr7]. cbn [heap root] in *.
  assert (H13 : hp m7 (cells old l ++ cctx 0 z x ++ (old, Nd (pz 0 z) (rt l) (rt r') c k u) ::
     (x, Nd (pz 0 z) (rt l) (rt r') c kx ux) :: cells old r')) by hperm H12.
  bstep get_in; [exact H13| |].
  { instantiate (1 := Nd (pz 0 z) (rt l) (rt r') c k u). apply in_or_app. right.
    apply in_or_app. right. now left. }
  intros n0 ->. cbn [lft rgt].
  destruct l as [|cl al kl ul ll lr]; [easy|].
  cbn [cells app rt] in H13 |- *.
  bstep setPar_ok; [exact H13|]. cbn [par lft rgt red key usage]. intros m8 H14.
  set (l := T cl al kl ul ll lr) in *.
  assert (H15 : hp m8 (cells old r' ++ cells x l ++ cctx 0 z x ++
     (old, Nd (pz 0 z) (rt l) (rt r') c k u) :: [(x, Nd (pz 0 z) (rt l) (rt r') c kx ux)])).
  { unfold l in H14 |- *. hperm H14. }
  bstep setParIf_ok; [exact H15|]. intros m9 H16.
  assert (HRn : R (St m9 r7) (plug z (T c x kx ux l r'))).
  { apply hp_R.
    - apply hp_sub with (L' := [(old, Nd (pz 0 z) (rt l) (rt r') c k u)]). hperm H16.
    - rewrite Hr7. destruct z as [|f z]; [reflexivity|].
      rewrite Hroot. unfold z1. clear. revert x.
      induction zs as [|g zs IH]; intros x; [reflexivity|]. cbn [app top]. apply IH. }
  assert (Hfl : flat (plug z (T c x kx ux l r')) = lz z ++ flat l ++ flat r ++ rz z).
  { rewrite Er. unfold r'. rewrite flat_plug. cbn [flat]. rewrite !flat_plug, Elz.
    cbn [flat app]. rewrite <- !app_assoc. cbn [app]. rewrite <- ?app_assoc. reflexivity. }
  (* heights *)
  assert (Hx : exists nx, rb (T cx x kx ux E xr) nx /\ cok (zs ++ FR c x kx ux l :: z) nx /\
             (isr (T cx x kx ux E xr) = true -> cbl (zs ++ FR c x kx ux l :: z))).
  { assert (G : forall zs nx, cok (zs ++ FR c old k u l :: z) nx -> cok (zs ++ FR c x kx ux l :: z) nx).
    { clear. induction zs as [|g zs IH]; intros nx; [easy|]. cbn. destruct (fred g).
      - intros (A & B & C & D). repeat split; auto. now destruct zs.
      - intros (A & B). auto. }
    destruct (unplug z1 (T cx x kx ux E xr) N) as (nx & A1 & A2 & A3).
    - unfold z1. rewrite plug_app, <- Er. exact Hgr.
    - unfold z1. rewrite plug_app, <- Er. exact Hgb.
    - exists nx. split; [exact A1|]. split; [now apply G|].
      intros Hi. specialize (A3 Hi). unfold z1 in A3. now destruct zs. }
  destruct Hx as (nx & Bx & Cx & Dx).
  assert (HRn' : R (St m9 r7) (plug (zs ++ FR c x kx ux l :: z) xr)).
  { rewrite plug_app. exact HRn. }
  assert (Hfl' : flat (plug (zs ++ FR c x kx ux l :: z) xr) = lz z ++ flat l ++ flat r ++ rz z).
  { rewrite plug_app. exact Hfl. }
  destruct cx.
  - apply ok_ret. exists (plug (zs ++ FR c x kx ux l :: z) xr).
    split; [exact HRn'|]. split; [exact Hfl'|].
    destruct Bx as (B1 & B2 & B3 & B4).
    apply good_plug with nx; [easy|easy|right; now apply Dx].
  - destruct Bx as (m & -> & B1 & B2).
    eapply ok_mono; [apply (eraseRebalance_ok fuel _ _ xr m HRn' B2 Cx)|].
    + pose proof (ht_plug (zs ++ FR c old k u l :: z) (T false x kx ux E xr)) as Hh.
      rewrite plug_app in Hh. rewrite <- Er in Hh. cbn [plug put] in Hh.
      rewrite app_length in *. cbn [length ht] in *. lia.
    + intros s' (t' & A1 & A2 & A3). exists t'. split; [easy|]. split; [|easy]. congruence.
Qed.
