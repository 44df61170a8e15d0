(** Proofs for _gst_async_call_internal. *)
From Coq Require Import Permutation.
From Verif Require Import Base Async AsyncSpec AsyncProofs.
Local Open Scope Z_scope.

(** ** The interleaving that loses a call *)
Definition first_posts (i : Z) : list Z := if i =? 0 then [1] else if i =? 1 then [2] else [].
Definition losing : list sevent :=
  repeat (SPoster 0) 3 ++ repeat (SPoster 1) 5 ++ repeat (SPoster 0) 4 ++ repeat SVm 6.

(** No pointer leads to [e], and its next field says that it is queued. *)
Definition dead (e : Z) (st : sstate) : Prop :=
  snext st e <> Null /\ shead st <> Node e /\ (forall x, snext st x <> Node e) /\
  (forall i, match sat (sposters st i) with
             | SBack x | SSwing x _ => x <> e
             | SMark x h => h <> Node e
             | _ => True end) /\
  (match svm st with
   | SAway => True
   | SRev s r => s <> Node e /\ r <> Node e
   | SRun s => s <> Node e
   | SCall x n => x <> e /\ n <> Node e end) /\
  ~ In e (slog st).

Lemma dead_step e st ev st' : dead e st -> sstep st ev = Ok st' -> dead e st'.
Proof.
  intros (D1 & D2 & D3 & D4 & D5 & D6) H. destruct ev as [i|]; cbn in H.
  - unfold spost_step in H. pose proof (D4 i) as Di.
    assert (K : forall td pc, (match pc with SBack x | SSwing x _ => x <> e | SMark x h => h <> Node e | _ => True end) ->
      forall j, match sat (upd (sposters st) i (mkSP td pc) j) with
             | SBack x | SSwing x _ => x <> e
             | SMark x h => h <> Node e
             | _ => True end).
    { intros td pc P j. unfold upd. destruct (j =? i); cbn; auto. apply D4. }
    destruct (sat (sposters st i)) as [|x|x h|x|x n] eqn:E.
    + destruct (stodo (sposters st i)) as [|x r]; [discriminate|]. inversion H; subst; clear H.
      do 3 (split; [assumption|]). split; [apply K; exact Logic.I|]. auto.
    + inversion H; subst; clear H. do 3 (split; [assumption|]). split; [apply K; exact D2|]. auto.
    + destruct (ptr_eqb_spec (snext st x) Null) as [N|N]; inversion H; subst; clear H.
      * assert (x <> e) by congruence.
        split; [cbn; unfold upd; destruct (Z.eqb_spec e x); [congruence|auto]|].
        split; [assumption|].
        split; [cbn; unfold upd; intros y; destruct (Z.eqb_spec y x); auto|].
        split; [apply K; auto|]. auto.
      * do 3 (split; [assumption|]). split; [apply K; exact Logic.I|]. auto.
    + inversion H; subst; clear H. do 3 (split; [assumption|]). split; [apply K; exact Di|]. auto.
    + destruct (ptr_eqb_spec (shead st) n) as [N|N]; inversion H; subst; clear H.
      * split; [assumption|]. split; [cbn; congruence|]. split; [assumption|].
        split; [apply K; exact Logic.I|]. auto.
      * do 3 (split; [assumption|]). split; [apply K; exact Logic.I|]. auto.
  - unfold svm_step in H. destruct (svm st) as [|s r|s|x n] eqn:E.
    + inversion H; subst; clear H. split; [assumption|]. split; [discriminate|]. split; [assumption|].
      split; [assumption|]. split; [cbn; split; [assumption|discriminate]|assumption].
    + destruct D5 as (D5 & D5'). destruct s as [| |x]; inversion H; subst; clear H.
      * do 4 (split; [assumption|]). split; [assumption|assumption].
      * assert (x <> e) by congruence.
        split; [cbn; unfold upd; destruct (Z.eqb_spec e x); [congruence|auto]|].
        split; [assumption|].
        split; [cbn; unfold upd; intros y; destruct (Z.eqb_spec y x); auto|].
        split; [assumption|]. split; [cbn; split; [apply D3|congruence]|assumption].
    + destruct s as [| |x]; inversion H; subst; clear H.
      * do 4 (split; [assumption|]). split; [exact Logic.I|assumption].
      * assert (x <> e) by congruence.
        split; [cbn; unfold upd; destruct (Z.eqb_spec e x); [congruence|auto]|].
        split; [assumption|].
        split; [cbn; unfold upd; intros y; destruct (Z.eqb_spec y x); [discriminate|auto]|].
        split; [assumption|]. split; [cbn; split; [assumption|apply D3]|assumption].
    + destruct D5 as (D5 & D5'). inversion H; subst; clear H.
      do 4 (split; [assumption|]). split; [assumption|]. cbn. rewrite in_app_iff. cbn. tauto.
Qed.

Lemma dead_run e h : forall st st', dead e st -> srun st h = Ok st' -> dead e st'.
Proof.
  induction h as [|ev h IH]; intros st st' D H; cbn in H.
  - inversion H; subst; auto.
  - destruct (sstep st ev) as [st1| | | |] eqn:E; cbn in H; try discriminate.
    eapply IH; [|exact H]. eapply dead_step; eauto.
Qed.

Ltac simp := cbn [obind sposters sat stodo snext shead svm slog app ptr_eqb Z.eqb Pos.eqb].
Ltac go := cbn [srun]; unfold sstep at 1;
  first [unfold spost_step at 1|unfold svm_step at 1]; simp;
  repeat (rewrite ?upd_same, ?(upd_other _ 0 _ 1), ?(upd_other _ 1 _ 0), ?(upd_other _ 1 _ 2), ?(upd_other _ 2 _ 1) by discriminate; simp);
  change (first_posts 0) with [1]; change (first_posts 1) with [2]; simp.

Lemma lost_forever more : exists st,
  srun (sstart (fun i => first_posts i ++ more i)) losing = Ok st /\
  (forall i, stodo (sposters st i) = more i /\ sat (sposters st i) = SIdle) /\
  svm st = SAway /\ shead st = Tail /\ slog st = [2] /\
  forall h' st', srun st h' = Ok st' -> ~ In 1 (slog st').
Proof.
  eexists. split.
  { unfold losing, sstart. cbn [repeat app].
    do 18 (go; []). cbn [srun]. reflexivity. }
  split.
  { intros i. cbn. unfold upd, first_posts.
    repeat match goal with |- context [i =? ?k] => destruct (Z.eqb_spec i k); subst; cbn end; auto. }
  split; [reflexivity|]. split; [reflexivity|]. split; [reflexivity|].
  intros h' st' H. assert (D : dead 1 st'); [|apply D].
  eapply dead_run; [|exact H].
  split; [cbn; discriminate|]. split; [cbn; discriminate|].
  split; [intros x; cbn; unfold upd; repeat (destruct (x =? _)); discriminate|].
  split.
  { intros i. cbn. unfold upd. repeat (destruct (i =? _); cbn; auto). }
  split; [exact Logic.I|]. cbn. intros [X|[]]. discriminate.
Qed.

(** ** Uninterrupted posts *)
Fixpoint schain (nx : Z -> ptr) (p : ptr) (l : list Z) : Prop :=
  match l with
  | [] => p = Tail
  | a :: r => p = Node a /\ schain nx (nx a) r
  end.

Lemma schain_frame nx nx' p l : (forall a, In a l -> nx' a = nx a) -> schain nx p l -> schain nx' p l.
Proof.
  revert p. induction l as [|a l IH]; cbn; auto.
  intros p F (-> & C). split; auto. rewrite F by auto. apply IH; auto.
Qed.

Lemma schain_nonnull nx p l : schain nx p l -> p <> Null.
Proof. destruct l; cbn; [congruence|]. intros (-> & _). discriminate. Qed.

Definition calling (w : svpc) : list Z := match w with SCall e _ => [e] | _ => [] end.

Definition svm_has (nx : Z -> ptr) (w : svpc) (v r : list Z) : Prop :=
  match w with
  | SAway => v = [] /\ r = []
  | SRev s t => schain nx s v /\ schain nx t r
  | SRun s => v = [] /\ schain nx s r
  | SCall _ n => v = [] /\ schain nx n r
  end.

Definition sinv (st : sstate) (q v r : list Z) : Prop :=
  schain (snext st) (shead st) q /\ svm_has (snext st) (svm st) v r /\ NoDup (q ++ v ++ r) /\
  (forall e, snext st e <> Null <-> In e (q ++ v ++ r)) /\
  (forall i, sat (sposters st i) = SIdle).

(** What the VM is about to call, in order. *)
Definition due (st : sstate) (q v r : list Z) : list Z := calling (svm st) ++ (rev v ++ r) ++ rev q.

Lemma sstart_inv prog : sinv (sstart prog) [] [] [].
Proof.
  split; [reflexivity|]. split; [cbn; auto|]. split; [constructor|].
  split; [cbn; intros; tauto|]. reflexivity.
Qed.

Lemma svm_frame nx nx' w v r : (forall a, In a (v ++ r) -> nx' a = nx a) ->
  svm_has nx w v r -> svm_has nx' w v r.
Proof.
  intros F. destruct w; cbn; auto; intros (A & B); split; auto;
    eapply schain_frame; try eassumption; intros a H; apply F, in_or_app; auto.
Qed.

Lemma solo_inv st q v r i e t : sinv st q v r -> stodo (sposters st i) = e :: t ->
  exists st' q', solo st i = Ok st' /\ sinv st' q' v r /\ slog st' = slog st /\ svm st' = svm st /\
    (forall j, stodo (sposters st' j) = stodo (upd (sposters st) i (mkSP t SIdle) j)) /\
    q' = if in_dec Z.eq_dec e (q ++ v ++ r) then q else e :: q.
Proof.
  intros (C & V & ND & NX & ID) Et. unfold solo.
  unfold spost_step at 1. rewrite (ID i), Et. cbn [obind].
  unfold spost_step at 1. cbn [sposters snext shead svm slog]. rewrite upd_same. cbn [sat stodo obind].
  unfold spost_step at 1. cbn [sposters snext shead svm slog]. rewrite upd_same. cbn [sat stodo].
  assert (TD : forall p1 p2 p3 : sposter, forall j, stodo p3 = t ->
     stodo (upd (upd (upd (sposters st) i p1) i p2) i p3 j) = stodo (upd (sposters st) i (mkSP t SIdle) j)).
  { intros p1 p2 p3 j E. unfold upd. destruct (j =? i); auto. }
  destruct (ptr_eqb_spec (snext st e) Null) as [N|N]; cbn [obind sposters sat]; rewrite upd_same; cbn [sat].
  - assert (Ni : ~ In e (q ++ v ++ r)) by (rewrite <- NX; congruence).
    destruct (in_dec Z.eq_dec e (q ++ v ++ r)) as [X|_]; [contradiction|].
    unfold spost_step at 1. cbn [sposters snext shead svm slog]. rewrite upd_same. cbn [sat stodo obind].
    unfold spost_step at 1. cbn [sposters snext shead svm slog]. rewrite upd_same. cbn [sat stodo obind].
    rewrite upd_same. destruct (ptr_eqb_spec (shead st) (shead st)) as [_|X]; [|congruence].
    eexists. exists (e :: q). split; [reflexivity|]. split; [|split; [|split; [|split]]]; try reflexivity.
    + assert (HU : forall a, In a (q ++ v ++ r) -> upd (snext st) e (shead st) a = snext st a).
      { intros a Ha. apply upd_other. congruence. }
      split; [|split; [|split; [|split]]]; cbn [snext shead svm sposters].
      * cbn. split; auto. rewrite upd_same. eapply schain_frame; [|exact C].
        intros a Ha. apply HU, in_or_app. auto.
      * eapply svm_frame; [|exact V]. intros a Ha. apply HU, in_or_app. auto.
      * cbn. constructor; auto.
      * intros x. cbn [app In]. rewrite <- NX. unfold upd. destruct (Z.eqb_spec x e) as [->|Nx].
        -- split; auto. intros _. eapply schain_nonnull; eauto.
        -- intuition congruence.
      * intros j. unfold upd. destruct (j =? i); auto.
    + intros j. cbn [sposters]. unfold upd. destruct (j =? i); auto.
  - assert (Yi : In e (q ++ v ++ r)) by (rewrite <- NX; auto).
    destruct (in_dec Z.eq_dec e (q ++ v ++ r)) as [_|X]; [|contradiction].
    eexists. exists q. split; [reflexivity|]. split; [|split; [|split; [|split]]]; try reflexivity.
    + split; [exact C|]. split; [exact V|]. split; [exact ND|]. split; [exact NX|].
      intros j. cbn [sposters]. unfold upd. destruct (j =? i); auto.
    + intros j. cbn [sposters]. unfold upd. destruct (j =? i); auto.
Qed.

Definition sphase (w : svpc) : nat :=
  match w with SAway => 0 | SRev _ _ => 2 | SRun _ => 1 | SCall _ _ => 2 end.
Definition smeasure (st : sstate) (q v r : list Z) : nat :=
  (7 * length q + 4 * length v + 2 * length r + sphase (svm st))%nat.

Lemma svm_inv st q v r : sinv st q v r ->
  exists st' q' v' r' l, svm_step st = Ok st' /\ sinv st' q' v' r' /\ sposters st' = sposters st /\
    slog st' = slog st ++ l /\ l ++ due st' q' v' r' = due st q v r /\
    (svm st <> SAway \/ q <> [] -> (smeasure st' q' v' r' < smeasure st q v r)%nat).
Proof.
  intros (C & V & ND & NX & ID). unfold svm_step, due, smeasure.
  destruct (svm st) as [|s t|s|e n] eqn:EV; cbn in V.
  - destruct V as (-> & ->). cbn [app] in *. rewrite app_nil_r in *.
    eexists. exists [], q, [], []. split; [reflexivity|]. split; [|split; [reflexivity|]].
    + split; [reflexivity|]. split; [cbn; auto|]. cbn [app]. rewrite app_nil_r. auto.
    + cbn. rewrite !app_nil_r. split; [reflexivity|]. split; [reflexivity|].
      intros [X|X]; [congruence|]. destruct q; [congruence|cbn; lia].
  - destruct V as (V1 & V2). destruct v as [|e v]; cbn in V1.
    + subst s. eexists. exists q, [], r, []. split; [reflexivity|]. split; [|split; [reflexivity|]].
      * split; [exact C|]. split; [cbn; auto|]. auto.
      * cbn. rewrite !app_nil_r. split; [reflexivity|]. split; [reflexivity|]. intros; lia.
    + destruct V1 as (-> & V1).
      assert (PERM : Permutation (q ++ v ++ e :: r) (q ++ (e :: v) ++ r)).
      { apply Permutation_app_head. cbn. symmetry. apply Permutation_middle. }
      assert (Nin : ~ In e q /\ ~ In e v /\ ~ In e r).
      { pose proof (Permutation_NoDup (Permutation_sym PERM) ND) as ND'.
        rewrite app_assoc in ND'. apply NoDup_remove_2 in ND'. rewrite !in_app_iff in ND'. tauto. }
      assert (HU : forall b, b <> e -> upd (snext st) e t b = snext st b) by (intros; apply upd_other; auto).
      eexists. exists q, v, (e :: r), []. split; [reflexivity|]. split; [|split; [reflexivity|]].
      * split; [|split; [|split; [|split]]]; cbn [snext shead svm sposters].
        -- eapply schain_frame; [|exact C]. intros b Hb. apply HU. intros ->. tauto.
        -- cbn. split; [eapply schain_frame; [|exact V1]; intros b Hb; apply HU; intros ->; tauto|].
           split; auto. rewrite upd_same.
           eapply schain_frame; [|exact V2]. intros b Hb. apply HU. intros ->. tauto.
        -- eapply Permutation_NoDup; [symmetry; exact PERM|exact ND].
        -- intros x. assert (IX : In x (q ++ v ++ e :: r) <-> In x (q ++ (e :: v) ++ r)).
           { split; apply Permutation_in; [|symmetry]; exact PERM. }
           rewrite IX, <- NX. unfold upd. destruct (Z.eqb_spec x e) as [->|Nx]; [|tauto].
           split; intros _.
           ++ rewrite NX. rewrite !in_app_iff. cbn. auto.
           ++ eapply schain_nonnull; eauto.
        -- exact ID.
      * cbn. rewrite !app_nil_r, <- !app_assoc. split; [reflexivity|]. split; [reflexivity|]. intros; lia.
  - destruct V as (-> & V). destruct r as [|e r]; cbn in V.
    + subst s. eexists. exists q, [], [], []. split; [reflexivity|]. split; [|split; [reflexivity|]].
      * split; [exact C|]. split; [cbn; auto|]. auto.
      * cbn. rewrite !app_nil_r. split; [reflexivity|]. split; [reflexivity|]. intros; lia.
    + destruct V as (-> & V). cbn [app] in *.
      pose proof (NoDup_remove_1 _ _ _ ND) as ND1. pose proof (NoDup_remove_2 _ _ _ ND) as ND2.
      rewrite in_app_iff in ND2.
      assert (HU : forall b, b <> e -> upd (snext st) e Null b = snext st b) by (intros; apply upd_other; auto).
      eexists. exists q, [], r, []. split; [reflexivity|]. split; [|split; [reflexivity|]].
      * split; [|split; [|split; [|split]]]; cbn [snext shead svm sposters app].
        -- eapply schain_frame; [|exact C]. intros b Hb. apply HU. intros ->. tauto.
        -- cbn. split; auto. eapply schain_frame; [|exact V]. intros b Hb. apply HU. intros ->. tauto.
        -- exact ND1.
        -- intros x. unfold upd. destruct (Z.eqb_spec x e) as [->|Nx].
           ++ rewrite in_app_iff. split; [congruence|tauto].
           ++ rewrite NX. rewrite !in_app_iff. cbn. intuition congruence.
        -- exact ID.
      * cbn. rewrite !app_nil_r. split; [reflexivity|]. split; [reflexivity|]. intros; lia.
  - destruct V as (-> & V). eexists. exists q, [], r, [e].
    split; [reflexivity|]. split; [|split; [reflexivity|]].
    + split; [exact C|]. split; [cbn; auto|]. auto.
    + cbn. split; [reflexivity|]. split; [reflexivity|]. intros; lia.
Qed.

Lemma svm_drains : forall n st q v r, (smeasure st q v r <= n)%nat -> sinv st q v r ->
  exists k st', crun st (repeat SVm k) = Ok st' /\ svm st' = SAway /\ shead st' = Tail /\
    slog st' = slog st ++ due st q v r.
Proof.
  induction n as [|n IH]; intros st q v r M I.
  - assert (Z0 : q = [] /\ v = [] /\ r = [] /\ svm st = SAway).
    { unfold smeasure in M. destruct q, v, r, (svm st); cbn in M; try lia; auto. }
    destruct Z0 as (-> & -> & -> & E). destruct I as (C & _).
    exists 0%nat, st. cbn. split; auto. split; auto. split; auto. unfold due. rewrite E. cbn.
    rewrite app_nil_r. auto.
  - destruct (svm_inv _ _ _ _ I) as (st1 & q' & v' & r' & l & E & I' & EP & LG & DU & DEC).
    assert (D : (svm st <> SAway \/ q <> []) \/ (svm st = SAway /\ q = [])).
    { destruct (svm st); try (left; left; discriminate). destruct q; auto. left; right; discriminate. }
    destruct D as [D|(Ev & ->)].
    + specialize (DEC D). destruct (IH st1 q' v' r' ltac:(lia) I') as (k & st' & R & A & B & L).
      exists (S k), st'. cbn. rewrite E. cbn. split; auto. split; auto. split; auto.
      rewrite L, LG, <- app_assoc, DU. auto.
    + destruct I as (C & V & _). rewrite Ev in V. cbn in V. destruct V as (-> & ->).
      exists 0%nat, st. cbn. split; auto. split; auto. split; auto. unfold due. rewrite Ev. cbn.
      rewrite app_nil_r. auto.
Qed.

Lemma posts_ext e h : forall f g, (forall i, f i = g i) -> posts e f h = posts e g h.
Proof.
  induction h as [|[i|] h IH]; intros f g E; cbn; auto.
  rewrite <- (E i). destruct (f i); auto. f_equal. apply IH.
  intros j. unfold upd. destruct (j =? i); auto.
Qed.

Lemma times_app e a b : times e (a ++ b) = (times e a + times e b)%nat.
Proof. apply count_occ_app. Qed.

Lemma times_perm e a b : Permutation a b -> times e a = times e b.
Proof. intros P. apply Permutation_count_occ. auto. Qed.

Lemma crun_inv h : forall st q v r st', sinv st q v r -> crun st h = Ok st' ->
  exists q' v' r', sinv st' q' v' r' /\
    forall e, (times e (slog st' ++ due st' q' v' r') <=
               times e (slog st ++ due st q v r) + posts e (fun i => stodo (sposters st i)) h)%nat.
Proof.
  induction h as [|ev h IH]; intros st q v r st' I H; cbn in H.
  - inversion H; subst. exists q, v, r. split; auto. intros; cbn; lia.
  - destruct ev as [i|].
    + destruct (stodo (sposters st i)) as [|e t] eqn:Et.
      { unfold solo, spost_step in H. pose proof I as (_ & _ & _ & _ & ID).
        rewrite (ID i), Et in H. discriminate. }
      destruct (solo_inv _ _ _ _ _ _ _ I Et) as (st1 & q1 & E & I1 & LG & SV & TD & Q1).
      rewrite E in H. cbn in H. destruct (IH _ _ _ _ _ I1 H) as (q' & v' & r' & I' & B).
      exists q', v', r'. split; auto. intros x. specialize (B x).
      cbn [posts]. rewrite Et.
      rewrite (posts_ext x h _ (upd (fun j => stodo (sposters st j)) i t)) in B.
      2:{ intros j. rewrite TD. unfold upd. destruct (j =? i); auto. }
      assert (X : (times x (slog st1 ++ due st1 q1 v r) <= times x (slog st ++ due st q v r) + (if (e =? x)%Z then 1 else 0))%nat).
      { unfold due. rewrite LG, SV, Q1. destruct (in_dec Z.eq_dec e (q ++ v ++ r)); [lia|].
        cbn [rev]. rewrite !times_app. cbn. destruct (Z.eq_dec e x); destruct (Z.eqb_spec e x); lia. }
      lia.
    + destruct (svm_inv _ _ _ _ I) as (st1 & q1 & v1 & r1 & l & E & I1 & EP & LG & DU & _).
      rewrite E in H. cbn in H. destruct (IH _ _ _ _ _ I1 H) as (q' & v' & r' & I' & B).
      exists q', v', r'. split; auto. intros x. specialize (B x). cbn [posts].
      rewrite EP, LG, <- app_assoc, DU in B. exact B.
Qed.

Lemma atomic_called prog h st i e t :
  crun (sstart prog) h = Ok st -> stodo (sposters st i) = e :: t ->
  exists st1 k st2 l, solo st i = Ok st1 /\ crun st1 (repeat SVm k) = Ok st2 /\
    svm st2 = SAway /\ shead st2 = Tail /\ slog st2 = slog st ++ l /\
    (In e l).
Proof.
  intros H Et. destruct (crun_inv h _ _ _ _ _ (sstart_inv prog) H) as (q & v & r & I & _).
  destruct (solo_inv _ _ _ _ _ _ _ I Et) as (st1 & q1 & E & I1 & LG & SV & TD & Q1).
  destruct (svm_drains _ st1 q1 v r (le_n _) I1) as (k & st2 & R & A & B & L).
  exists st1, k, st2, (due st1 q1 v r). rewrite <- LG.
  do 5 (split; [assumption|]).
  unfold due. rewrite !in_app_iff, <- !in_rev, Q1.
  destruct (in_dec Z.eq_dec e (q ++ v ++ r)) as [X|X].
  - rewrite !in_app_iff in X. tauto.
  - cbn. auto.
Qed.

Lemma atomic_at_most prog h st e :
  crun (sstart prog) h = Ok st -> (times e (slog st) <= posts e prog h)%nat.
Proof.
  intros H. destruct (crun_inv h _ _ _ _ _ (sstart_inv prog) H) as (q & v & r & I & B).
  specialize (B e). rewrite times_app in B. change (posts e (fun i => stodo (sposters (sstart prog) i)) h) with (posts e prog h) in B. cbn [sstart slog due svm calling rev app times count_occ] in B. unfold due, times in B |- *. cbn in B. lia.
Qed.
