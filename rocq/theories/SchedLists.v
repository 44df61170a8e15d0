(** The linked lists of the scheduler, seen as a queue per semaphore. *)
From Verif Require Import Base Sched.
Local Open Scope Z_scope.

(** [f] leads through the processes of [l] to [e]. *)
Fixpoint seg (st : vm) (f : option Z) (l : list Z) (e : option Z) : Prop :=
  match l with
  | [] => f = e
  | x :: r => f = Some x /\ seg st (next_link (procs st x)) r e
  end.

Definition lasto (l : list Z) : option Z :=
  match rev l with [] => None | x :: _ => Some x end.

Definition rep (st : vm) (q : Z -> list Z) : Prop :=
  (forall l, seg st (first_link (sems st l)) (q l) None) /\
  (forall l, last_link (sems st l) = lasto (q l)) /\
  (forall p l, my_list (procs st p) = Some l <-> In p (q l)) /\
  (forall l, NoDup (q l)) /\
  (forall l p, In p (q l) -> In p (created st)).

(** Nothing but the links changed. *)
Definition same (a b : vm) : Prop :=
  (forall p, priority (procs b p) = priority (procs a p) /\
             alive (procs b p) = alive (procs a p) /\
             top (procs b p) = top (procs a p)) /\
  (forall s, signals (sems b s) = signals (sems a s)) /\
  created b = created a /\ scheduled b = scheduled a /\ switch_to b = switch_to a.

Definition qrem (p : Z) (q : Z -> list Z) : Z -> list Z :=
  fun l => remove Z.eq_dec p (q l).
Definition qset (l : Z) (v : list Z) (q : Z -> list Z) : Z -> list Z :=
  fun x => if x =? l then v else q x.

Lemma same_refl a : same a a.
Proof. unfold same; intuition. Qed.

Lemma same_trans a b c : same a b -> same b c -> same a c.
Proof.
  intros (A1 & A2 & A3 & A4 & A5) (B1 & B2 & B3 & B4 & B5).
  split; [|split; [|split; [|split]]]; [| |congruence|congruence|congruence].
  - intros p. destruct (A1 p) as (x & y & z), (B1 p) as (x' & y' & z').
    rewrite x', y', z'; auto.
  - intros s. rewrite B2; auto.
Qed.

Lemma oeq_true a b : oeq a b = true <-> a = b.
Proof.
  destruct a, b; cbn; split; intros H; try congruence.
  - apply Z.eqb_eq in H; congruence.
  - apply Z.eqb_eq; congruence.
Qed.

Lemma oeq_false a b : oeq a b = false <-> a <> b.
Proof.
  rewrite <- oeq_true. destruct (oeq a b); intuition congruence.
Qed.

Lemma oeq_spec a b : reflect (a = b) (oeq a b).
Proof.
  destruct (oeq a b) eqn:E; constructor;
    [apply oeq_true in E | apply oeq_false in E]; assumption.
Qed.

Lemma lasto_app l x : lasto (l ++ [x]) = Some x.
Proof. unfold lasto. rewrite rev_app_distr. reflexivity. Qed.

Lemma lasto_nil_iff l : lasto l = None <-> l = [].
Proof.
  destruct l as [|x l] using rev_ind; [cbn; tauto|].
  rewrite lasto_app. split; intros H; [discriminate|destruct l; discriminate].
Qed.

Lemma lasto_cons x y l : lasto (x :: y :: l) = lasto (y :: l).
Proof.
  unfold lasto. cbn [rev].
  destruct (rev l) eqn:E; reflexivity.
Qed.

Lemma lasto_In l x : lasto l = Some x -> In x l.
Proof.
  destruct l as [|y l] using rev_ind; [discriminate|].
  rewrite lasto_app. intros H; inversion H; subst. apply in_or_app; right; left; auto.
Qed.

Lemma seg_app st f a b e :
  seg st f (a ++ b) e <-> exists m, seg st f a m /\ seg st m b e.
Proof.
  revert f; induction a as [|x a IH]; intros f; cbn.
  - split; [intros H; exists f; auto|intros (m & -> & H); auto].
  - rewrite IH. split.
    + intros (H & m & H1 & H2). exists m; auto.
    + intros (m & (H & H1) & H2). split; eauto.
Qed.

Lemma seg_frame st st' f l e :
  (forall x, In x l -> next_link (procs st' x) = next_link (procs st x)) ->
  seg st f l e -> seg st' f l e.
Proof.
  revert f; induction l as [|x l IH]; intros f H; cbn; [auto|].
  intros (H1 & H2). split; auto.
  rewrite H by (left; auto). apply IH; auto.
  intros y Hy; apply H; right; auto.
Qed.

Lemma seg_first st f l : seg st f l None -> f = match l with [] => None | x :: _ => Some x end.
Proof. destruct l; cbn; intuition. Qed.

(** ** Reading one field after assigning another *)
Lemma procs_with_proc st p f x :
  procs (with_proc st p f) x = if x =? p then f (procs st x) else procs st x.
Proof. reflexivity. Qed.
Lemma sems_with_proc st p f : sems (with_proc st p f) = sems st.
Proof. reflexivity. Qed.
Lemma procs_with_sem st p f : procs (with_sem st p f) = procs st.
Proof. reflexivity. Qed.
Lemma sems_with_sem st s f x :
  sems (with_sem st s f) x = if x =? s then f (sems st x) else sems st x.
Proof. reflexivity. Qed.
Lemma created_with_proc st p f : created (with_proc st p f) = created st.
Proof. reflexivity. Qed.
Lemma created_with_sem st p f : created (with_sem st p f) = created st.
Proof. reflexivity. Qed.

Ltac eqcase :=
  repeat match goal with
  | |- context [?a =? ?b] => destruct (Z.eqb_spec a b); subst; cbn [fst snd] in *
  end.

Lemma rep_ext st q q' : (forall l, q' l = q l) -> rep st q -> rep st q'.
Proof.
  intros E (H1 & H2 & H3 & H4 & H5).
  split; [|split; [|split; [|split]]]; intros; rewrite ?E in *; eauto.
Qed.

Lemma remove_notin (p : Z) l : ~ In p l -> remove Z.eq_dec p l = l.
Proof.
  induction l as [|x l IH]; cbn; auto; intros H.
  destruct (Z.eq_dec p x) as [->|]; [exfalso; apply H; auto|].
  f_equal; apply IH; tauto.
Qed.

Lemma remove_app (p : Z) a b :
  remove Z.eq_dec p (a ++ b) = remove Z.eq_dec p a ++ remove Z.eq_dec p b.
Proof.
  induction a as [|x a IH]; cbn; auto.
  destruct (Z.eq_dec p x); auto. cbn. f_equal; auto.
Qed.

Lemma remove_mid (p : Z) a b :
  NoDup (a ++ p :: b) -> remove Z.eq_dec p (a ++ p :: b) = a ++ b.
Proof.
  intros H. apply NoDup_remove in H as [_ H].
  rewrite remove_app. cbn. destruct (Z.eq_dec p p); [|congruence].
  rewrite !remove_notin; auto; intros X; apply H; apply in_or_app; auto.
Qed.

Lemma In_remove (p x : Z) l : In x (remove Z.eq_dec p l) <-> In x l /\ x <> p.
Proof.
  split; [apply in_remove|]. intros (H & N). apply in_in_remove; auto.
Qed.

Lemma NoDup_remove_p (p : Z) l : NoDup l -> NoDup (remove Z.eq_dec p l).
Proof.
  induction l as [|x l IH]; cbn; intros H; auto.
  inversion H; subst. destruct (Z.eq_dec p x); auto.
  constructor; auto. rewrite In_remove; tauto.
Qed.

Lemma find_prev_ok st p a c : forall fuel f,
  seg st f (a ++ [c]) (Some p) -> ~ In p (a ++ [c]) ->
  (length (a ++ [c]) <= fuel)%nat ->
  find_prev fuel st p f = Ok c.
Proof.
  induction a as [|x a IH]; intros fuel f H Np L.
  - cbn in H. destruct H as (-> & H). destruct fuel; [cbn in L; lia|].
    cbn. rewrite H. cbn. rewrite Z.eqb_refl. reflexivity.
  - cbn in H. destruct H as (-> & H). destruct fuel; [cbn in L; lia|].
    cbn [find_prev].
    destruct (oeq_spec (next_link (procs st x)) (Some p)) as [E|E].
    + exfalso. apply Np.
      destruct a as [|y a]; cbn in H; destruct H as (H & _); rewrite E in H;
        inversion H; subst; cbn; auto.
    + apply IH; auto. intros X; apply Np; right; auto. cbn in L; lia.
Qed.

Lemma rep_len st q l : rep st q -> (length (q l) <= length (created st))%nat.
Proof.
  intros (H1 & H2 & H3 & H4 & H5). apply NoDup_incl_length; auto.
  intros x; apply H5.
Qed.

Lemma rep_unique st q p l l' : rep st q -> In p (q l) -> In p (q l') -> l = l'.
Proof.
  intros (H1 & H2 & H3 & H4 & H5) A B. apply H3 in A, B. congruence.
Qed.

Lemma same_set_next st p v : same st (set_next st p v).
Proof.
  unfold same, set_next. cbn. split; [|auto].
  intros x; destruct (x =? p); auto.
Qed.
Lemma same_set_my_list st p v : same st (set_my_list st p v).
Proof.
  unfold same, set_my_list. cbn. split; [|auto].
  intros x; destruct (x =? p); auto.
Qed.
Lemma same_set_first st p v : same st (set_first st p v).
Proof.
  unfold same, set_first. cbn. split; [auto|split; [|auto]].
  intros x; destruct (x =? p); auto.
Qed.
Lemma same_set_last st p v : same st (set_last st p v).
Proof.
  unfold same, set_last. cbn. split; [auto|split; [|auto]].
  intros x; destruct (x =? p); auto.
Qed.

Lemma same_created a b : same a b -> created b = created a.
Proof. unfold same; intuition. Qed.

Lemma find_prev_seg st p a c f fuel :
  seg st f (a ++ [c]) (Some p) -> ~ In p (a ++ [c]) ->
  (length (a ++ [c]) <= fuel)%nat ->
  find_prev fuel st p f = Ok c.
Proof.
  intros. eapply find_prev_ok; eauto.
Qed.

Lemma seg_next_last st f a c e :
  seg st f (a ++ [c]) e -> next_link (procs st c) = e.
Proof. rewrite seg_app. intros (m & _ & H). cbn in H. intuition. Qed.

Lemma seg_snoc st f a c e :
  seg st f (a ++ [c]) e -> seg st f a (Some c).
Proof. rewrite seg_app. intros (m & A & H). cbn in H. destruct H; subst; auto. Qed.

(** remove_process_from_list removes the process from whatever queue it is in. *)
Lemma remove_from_list_rep st q p :
  rep st q ->
  exists st', remove_from_list st p = Ok st' /\ same st st' /\ rep st' (qrem p q) /\
              my_list (procs st' p) = None.
Proof.
  intros R. pose proof R as (H1 & H2 & H3 & H4 & H5).
  unfold remove_from_list.
  destruct (my_list (procs st p)) as [l|] eqn:M.
  - apply H3 in M. destruct (in_split _ _ M) as (a & b & E).
    pose proof (H4 l) as ND. rewrite E in ND.
    pose proof (NoDup_remove _ _ _ ND) as [ND' Nin].
    pose proof (H1 l) as SG. rewrite E in SG.
    apply seg_app in SG as (m & SA & SB). cbn in SB. destruct SB as (-> & SB).
    assert (Rm : forall x, qrem p q x = if x =? l then a ++ b else q x).
    { intros x. unfold qrem. destruct (Z.eqb_spec x l) as [->|N].
      - rewrite E. apply remove_mid; auto.
      - apply remove_notin. intros X. apply N. eapply rep_unique; eauto. }
    assert (Oth : forall x l', l' <> l -> In x (q l') -> x <> p).
    { intros x l' N X ->. apply N. eapply rep_unique; eauto. }
    destruct a as [|c a _] using rev_ind.
    + cbn in SA. destruct (oeq_spec (first_link (sems st l)) (Some p)) as [_|X];
        [|contradiction]. cbn [obind].
      eexists; split; [reflexivity|].
      assert (SAME : same st (set_next (set_my_list
         (if oeq (last_link (sems (set_first st l (next_link (procs st p))) l)) (Some p)
          then set_last (set_first st l (next_link (procs st p))) l None
          else set_first st l (next_link (procs st p))) p None) p None)).
      { eapply same_trans; [|apply same_set_next].
        eapply same_trans; [|apply same_set_my_list].
        destruct (oeq _ _).
        - eapply same_trans; [apply same_set_first|apply same_set_last].
        - apply same_set_first. }
      split; [exact SAME|].
      assert (LL : last_link (sems st l) = Some p <-> b = []).
      { rewrite H2, E. cbn [app]. destruct b as [|y b]; [cbn; tauto|].
        split; [|discriminate]. intros X. exfalso. apply Nin.
        rewrite lasto_cons in X. apply lasto_In in X. exact X. }
      set (st' := set_next _ _ _) in *.
      assert (NX : forall x, x <> p -> next_link (procs st' x) = next_link (procs st x)).
      { intros x N. unfold st'. clear -N.
        destruct (oeq _ _); cbn; destruct (Z.eqb_spec x p); cbn; congruence. }
      assert (FS : forall x, first_link (sems st' x) =
                   if x =? l then next_link (procs st p) else first_link (sems st x)).
      { intros x. unfold st'. clear. destruct (oeq _ _); cbn; destruct (x =? l); reflexivity. }
      assert (LS : forall x, last_link (sems st' x) =
                   if x =? l then lasto b else last_link (sems st x)).
      { intros x. unfold st'. cbn. rewrite Z.eqb_refl. cbn.
        destruct (oeq_spec (last_link (sems st l)) (Some p)) as [X|X]; cbn;
          destruct (Z.eqb_spec x l) as [->|]; cbn; auto.
        - apply LL in X. subst b. reflexivity.
        - rewrite H2, E. cbn [app]. destruct b; [|apply lasto_cons].
          exfalso; apply X, LL; auto. }
      assert (ML : forall x, my_list (procs st' x) =
                   if x =? p then None else my_list (procs st x)).
      { intros x. unfold st'. clear. destruct (oeq _ _); cbn; destruct (x =? p); reflexivity. }
      split; [|rewrite ML, Z.eqb_refl; reflexivity].
      eapply rep_ext; [exact Rm|]. cbn [app].
      split; [|split; [|split; [|split]]].
      * intros x. rewrite FS. destruct (Z.eqb_spec x l) as [->|N].
        -- eapply seg_frame; [|exact SB]. intros y Hy. apply NX. intros ->.
           apply Nin. exact Hy.
        -- eapply seg_frame; [|apply H1]. intros y Hy. apply NX. eapply Oth; eauto.
      * intros x. rewrite LS. destruct (x =? l); auto.
      * intros x l'. rewrite ML. destruct (Z.eqb_spec x p) as [->|N].
        -- split; [discriminate|]. destruct (Z.eqb_spec l' l) as [->|N'].
           ++ intros X. exfalso. apply Nin. exact X.
           ++ intros X. exfalso. exact (Oth _ _ N' X eq_refl).
        -- rewrite H3. destruct (Z.eqb_spec l' l) as [->|N']; [|tauto].
           rewrite E. cbn. intuition congruence.
      * intros x. destruct (x =? l); auto.
      * intros l' x. rewrite (same_created _ _ SAME).
        destruct (Z.eqb_spec l' l) as [->|N']; [|apply H5].
        intros X. apply (H5 l). rewrite E. right; auto.
    + destruct (oeq_spec (first_link (sems st l)) (Some p)) as [X|X].
      { exfalso. apply Nin. apply in_or_app; left.
        destruct a as [|y a]; cbn in SA; destruct SA as (SA & _);
          rewrite X in SA; inversion SA; cbn; auto. }
      assert (Npa : ~ In p (a ++ [c])).
      { intros Y. apply Nin. apply in_or_app; auto. }
      rewrite (find_prev_seg st p a c _ _ SA Npa).
      2:{ pose proof (rep_len _ _ l R) as L. rewrite E in L.
          rewrite app_length in L. cbn in L. lia. }
      cbn [obind].
      eexists; split; [reflexivity|].
      match goal with |- same st ?X /\ _ => set (st' := X) end.
      assert (SAME : same st st').
      { unfold st'. eapply same_trans; [|apply same_set_next].
        eapply same_trans; [|apply same_set_my_list].
        destruct (oeq _ _).
        - eapply same_trans; [apply same_set_next|apply same_set_last].
        - apply same_set_next. }
      split; [exact SAME|].
      assert (LL : last_link (sems st l) = Some p <-> b = []).
      { rewrite H2, E. destruct b as [|y b _] using rev_ind.
        - rewrite lasto_app. tauto.
        - replace ((a ++ [c]) ++ p :: b ++ [y]) with (((a ++ [c]) ++ p :: b) ++ [y])
            by (rewrite <- !app_assoc; reflexivity).
          rewrite lasto_app. split; [|destruct b; discriminate].
          intros Y. inversion Y; subst. exfalso. apply Nin.
          rewrite !in_app_iff. cbn. auto. }
      assert (NC : c <> p).
      { intros ->. apply Npa. apply in_or_app; right; left; auto. }
      assert (NX : forall x, x <> p -> next_link (procs st' x) =
                   if x =? c then next_link (procs st p) else next_link (procs st x)).
      { intros x N. unfold st'. clear - N.
        destruct (oeq _ _); cbn; destruct (Z.eqb_spec x p); cbn; try congruence;
        destruct (x =? c); reflexivity. }
      assert (FS : forall x, first_link (sems st' x) = first_link (sems st x)).
      { intros x. unfold st'. clear.
        destruct (oeq _ _); cbn; [destruct (x =? l)|]; reflexivity. }
      assert (LS : forall x, last_link (sems st' x) =
                   if x =? l then lasto ((a ++ [c]) ++ b) else last_link (sems st x)).
      { intros x. unfold st'. cbn.
        destruct (oeq_spec (last_link (sems st l)) (Some p)) as [Y|Y]; cbn;
          destruct (Z.eqb_spec x l) as [->|]; cbn; auto.
        - apply LL in Y. subst b. rewrite app_nil_r, lasto_app. reflexivity.
        - rewrite H2, E. destruct b as [|y b _] using rev_ind.
          + exfalso; apply Y, LL; auto.
          + rewrite app_comm_cons, !app_assoc, !lasto_app. reflexivity. }
      assert (ML : forall x, my_list (procs st' x) =
                   if x =? p then None else my_list (procs st x)).
      { intros x. unfold st'. clear.
        destruct (oeq _ _); cbn; destruct (x =? p); cbn; destruct (x =? c); reflexivity. }
      split; [|rewrite ML, Z.eqb_refl; reflexivity].
      eapply rep_ext; [exact Rm|].
      assert (NCa : ~ In c a).
      { rewrite <- app_assoc in ND'. apply NoDup_remove_2 in ND'.
        intros Y; apply ND'. apply in_or_app; auto. }
      assert (NCb : ~ In c b).
      { rewrite <- app_assoc in ND'. apply NoDup_remove_2 in ND'.
        intros Y; apply ND'. apply in_or_app; auto. }
      split; [|split; [|split; [|split]]].
      * intros x. rewrite FS. destruct (Z.eqb_spec x l) as [->|N].
        -- rewrite seg_app. exists (next_link (procs st p)). split.
           ++ rewrite seg_app. exists (Some c). split.
              ** eapply seg_frame; [|exact (seg_snoc _ _ _ _ _ SA)].
                 intros y Hy. rewrite NX.
                 { destruct (Z.eqb_spec y c) as [->|]; [contradiction|auto]. }
                 intros ->. apply Npa. apply in_or_app; auto.
              ** cbn [seg]. split; [reflexivity|]. rewrite NX by auto. rewrite Z.eqb_refl. reflexivity.
           ++ eapply seg_frame; [|exact SB]. intros y Hy. rewrite NX.
              ** destruct (Z.eqb_spec y c) as [->|]; [contradiction|auto].
              ** intros ->. apply Nin. apply in_or_app; auto.
        -- eapply seg_frame; [|apply H1]. intros y Hy. rewrite NX by (eapply Oth; eauto).
           destruct (Z.eqb_spec y c) as [->|]; auto.
           exfalso. apply N. eapply rep_unique; [exact R|exact Hy|].
           rewrite E. rewrite !in_app_iff. cbn. auto.
      * intros x. rewrite LS. destruct (x =? l); auto.
      * intros x l'. rewrite ML. destruct (Z.eqb_spec x p) as [->|N].
        -- split; [discriminate|]. destruct (Z.eqb_spec l' l) as [->|N'].
           ++ intros Y. exfalso. apply Nin. exact Y.
           ++ intros Y. exfalso. exact (Oth _ _ N' Y eq_refl).
        -- rewrite H3. destruct (Z.eqb_spec l' l) as [->|N']; [|tauto].
           rewrite E. rewrite !in_app_iff. cbn. intuition congruence.
      * intros x. destruct (x =? l); auto.
      * intros l' x. rewrite (same_created _ _ SAME).
        destruct (Z.eqb_spec l' l) as [->|N']; [|apply H5].
        intros Y. apply (H5 l). rewrite E. rewrite in_app_iff in *. cbn. tauto.
  - eexists; split; [reflexivity|]. split; [apply same_set_next|].
    assert (Np : forall l, ~ In p (q l)).
    { intros l X. apply H3 in X. congruence. }
    split; [|cbn; rewrite Z.eqb_refl; cbn; assumption].
    eapply rep_ext; [intros l; apply remove_notin, Np|].
    split; [|split; [|split; [|split]]]; auto.
    + intros l. eapply seg_frame; [|apply H1].
      intros x X. cbn. destruct (Z.eqb_spec x p) as [->|]; [|reflexivity].
      exfalso; eapply Np; eauto.
    + intros x l. cbn. rewrite <- H3. destruct (x =? p); cbn; tauto.
Qed.

Lemma qrem_notin p q l : ~ In p (qrem p q l).
Proof. unfold qrem. rewrite In_remove. tauto. Qed.

Lemma qrem_In p q l x : In x (qrem p q l) <-> In x (q l) /\ x <> p.
Proof. unfold qrem. apply In_remove. Qed.

Definition qfirst (l p : Z) (q : Z -> list Z) : Z -> list Z :=
  qset l (p :: qrem p q l) (qrem p q).
Definition qlast (l p : Z) (q : Z -> list Z) : Z -> list Z :=
  qset l (qrem p q l ++ [p]) (qrem p q).

Lemma add_first_link_rep st q l p :
  rep st q -> In p (created st) ->
  exists st', add_first_link st l p = Ok st' /\ same st st' /\ rep st' (qfirst l p q) /\
              my_list (procs st' p) = Some l.
Proof.
  intros R0 Cp. unfold add_first_link.
  destruct (remove_from_list_rep st q p R0) as (st1 & -> & S1 & R & _).
  cbn [obind]. eexists; split; [reflexivity|].
  match goal with |- same st ?X /\ _ => set (st' := X) end.
  unfold qfirst. pose proof (fun x => qrem_notin p q x) as Np.
  set (q1 := qrem p q) in *. clearbody q1.
  pose proof R as (H1 & H2 & H3 & H4 & H5).
  assert (SAME1 : same st1 st').
  { unfold st'. clear.
    destruct (last_link _).
    - eapply same_trans; [|apply same_set_first].
      eapply same_trans; [|apply same_set_next]. apply same_set_my_list.
    - eapply same_trans; [|apply same_set_last].
      eapply same_trans; [|apply same_set_first].
      eapply same_trans; [|apply same_set_next]. apply same_set_my_list. }
  assert (SAME : same st st') by (eapply same_trans; eauto).
  split; [exact SAME|].
  assert (NX : forall x, next_link (procs st' x) =
                 if x =? p then first_link (sems st1 l) else next_link (procs st1 x)).
  { intros x. unfold st'. clear. destruct (last_link _); cbn; destruct (x =? p); reflexivity. }
  assert (FS : forall x, first_link (sems st' x) =
                 if x =? l then Some p else first_link (sems st1 x)).
  { intros x. unfold st'. clear. destruct (last_link _); cbn; destruct (x =? l); reflexivity. }
  assert (LS : forall x, last_link (sems st' x) =
                 if x =? l then lasto (p :: q1 l) else last_link (sems st1 x)).
  { intros x. unfold st'. cbn. rewrite Z.eqb_refl. cbn.
    destruct (last_link (sems st1 l)) eqn:E; cbn;
      destruct (Z.eqb_spec x l) as [->|]; cbn; auto.
    - rewrite E. rewrite H2 in E. destruct (q1 l) as [|y r]; [discriminate|].
      rewrite lasto_cons. auto.
    - rewrite H2 in E. apply lasto_nil_iff in E. rewrite E. reflexivity. }
  assert (ML : forall x, my_list (procs st' x) =
                 if x =? p then Some l else my_list (procs st1 x)).
  { intros x. unfold st'. clear. destruct (last_link _); cbn; destruct (x =? p); reflexivity. }
  split; [|rewrite ML, Z.eqb_refl; reflexivity].
  clearbody st'. unfold qset.
  split; [|split; [|split; [|split]]].
  - intros x. rewrite FS. destruct (Z.eqb_spec x l) as [->|N].
    + cbn [seg]. split; [reflexivity|]. rewrite NX, Z.eqb_refl.
      eapply seg_frame; [|apply H1]. intros y Hy. rewrite NX.
      destruct (Z.eqb_spec y p) as [->|]; auto. exfalso; eapply Np; eauto.
    + eapply seg_frame; [|apply H1]. intros y Hy. rewrite NX.
      destruct (Z.eqb_spec y p) as [->|]; auto. exfalso; eapply Np; eauto.
  - intros x. rewrite LS. destruct (x =? l); auto.
  - intros x l'. rewrite ML. destruct (Z.eqb_spec x p) as [->|N].
    + destruct (Z.eqb_spec l' l) as [->|N'].
      * split; auto. intros _; left; auto.
      * split; [congruence|]. intros X; exfalso; eapply Np; eauto.
    + rewrite H3. destruct (Z.eqb_spec l' l) as [->|N']; [|tauto].
      cbn. intuition congruence.
  - intros x. destruct (x =? l); auto. constructor; auto.
  - intros l' x. rewrite (same_created _ _ SAME1).
    destruct (Z.eqb_spec l' l) as [->|N']; [|apply H5].
    intros [->|X]; [|eapply H5; eauto].
    rewrite (same_created _ _ S1). exact Cp.
Qed.

Lemma add_last_link_rep st q l p :
  rep st q -> In p (created st) ->
  exists st', add_last_link st l p = Ok st' /\ same st st' /\ rep st' (qlast l p q) /\
              my_list (procs st' p) = Some l.
Proof.
  intros R0 Cp. unfold add_last_link.
  destruct (remove_from_list_rep st q p R0) as (st1 & -> & S1 & R & _).
  cbn [obind]. eexists; split; [reflexivity|].
  match goal with |- same st ?X /\ _ => set (st' := X) end.
  unfold qlast. pose proof (fun x => qrem_notin p q x) as Np.
  set (q1 := qrem p q) in *. clearbody q1.
  pose proof R as (H1 & H2 & H3 & H4 & H5).
  assert (SAME1 : same st1 st').
  { unfold st'. clear.
    destruct (last_link _).
    - eapply same_trans; [|apply same_set_last].
      eapply same_trans; [|apply same_set_next].
      eapply same_trans; [|apply same_set_next]. apply same_set_my_list.
    - eapply same_trans; [|apply same_set_first].
      eapply same_trans; [|apply same_set_last].
      eapply same_trans; [|apply same_set_next]. apply same_set_my_list. }
  assert (SAME : same st st') by (eapply same_trans; eauto).
  split; [exact SAME|].
  assert (NX : forall x, next_link (procs st' x) =
                 if x =? p then None
                 else if oeq (lasto (q1 l)) (Some x) then Some p
                 else next_link (procs st1 x)).
  { intros x. unfold st'. cbn. rewrite H2.
    destruct (lasto (q1 l)) as [c|] eqn:E; cbn.
    - assert (c <> p) by (intros ->; apply lasto_In in E; eapply Np; eauto).
      rewrite (Z.eqb_sym c x).
      destruct (Z.eqb_spec x c), (Z.eqb_spec x p); cbn; congruence.
    - destruct (x =? p); cbn; reflexivity. }
  assert (FS : forall x, first_link (sems st' x) =
                 if (x =? l) && oeq (lasto (q1 l)) None then Some p
                 else first_link (sems st1 x)).
  { intros x. unfold st'. cbn. rewrite H2.
    destruct (lasto (q1 l)); cbn; destruct (x =? l); cbn; reflexivity. }
  assert (LS : forall x, last_link (sems st' x) =
                 if x =? l then Some p else last_link (sems st1 x)).
  { intros x. unfold st'. cbn. rewrite H2.
    destruct (lasto (q1 l)); cbn; destruct (x =? l); cbn; reflexivity. }
  assert (ML : forall x, my_list (procs st' x) =
                 if x =? p then Some l else my_list (procs st1 x)).
  { intros x. unfold st'. cbn. rewrite H2. destruct (lasto (q1 l)) as [c|]; cbn;
      destruct (x =? p); cbn; try destruct (x =? c); reflexivity. }
  split; [|rewrite ML, Z.eqb_refl; reflexivity].
  clearbody st'. unfold qset.
  split; [|split; [|split; [|split]]].
  - intros x. rewrite FS. destruct (Z.eqb_spec x l) as [->|N]; cbn [andb].
    + destruct (lasto (q1 l)) as [c|] eqn:E; cbn [oeq] in *.
      * destruct (q1 l) as [|c' a _] eqn:E1 using rev_ind; [discriminate|].
        rewrite lasto_app in E. inversion E; subst c'; clear E.
        pose proof (H1 l) as SG. rewrite E1 in SG.
        pose proof (seg_snoc _ _ _ _ _ SG) as SG'.
        pose proof (H4 l) as ND. rewrite E1 in ND.
        apply NoDup_remove_2 in ND. rewrite app_nil_r in ND.
        assert (Nc : c <> p).
        { intros ->. apply (Np l). rewrite E1. apply in_or_app; right; left; auto. }
        rewrite seg_app. exists (Some p). split.
        -- rewrite seg_app. exists (Some c). split.
           ++ eapply seg_frame; [|exact SG']. intros y Hy. rewrite NX.
              destruct (Z.eqb_spec y p) as [->|].
              { exfalso. apply (Np l). rewrite E1. apply in_or_app; auto. }
              destruct (Z.eqb_spec c y) as [->|]; [contradiction|auto].
           ++ cbn [seg]. split; [reflexivity|]. rewrite NX.
              destruct (Z.eqb_spec c p); [congruence|]. rewrite Z.eqb_refl. reflexivity.
        -- cbn [seg]. split; [reflexivity|]. rewrite NX, Z.eqb_refl. reflexivity.
      * apply lasto_nil_iff in E. rewrite E. cbn [app seg].
        split; [reflexivity|]. rewrite NX, Z.eqb_refl. reflexivity.
    + eapply seg_frame; [|apply H1]. intros y Hy. rewrite NX.
      destruct (Z.eqb_spec y p) as [->|]; [exfalso; eapply Np; eauto|].
      destruct (oeq_spec (lasto (q1 l)) (Some y)) as [E|]; auto.
      exfalso. apply N. apply lasto_In in E. eapply rep_unique; eauto.
  - intros x. rewrite LS. destruct (x =? l); auto. rewrite lasto_app; auto.
  - intros x l'. rewrite ML. destruct (Z.eqb_spec x p) as [->|N].
    + destruct (Z.eqb_spec l' l) as [->|N'].
      * split; auto. intros _. apply in_or_app; right; left; auto.
      * split; [congruence|]. intros X; exfalso; eapply Np; eauto.
    + rewrite H3. destruct (Z.eqb_spec l' l) as [->|N']; [|tauto].
      rewrite in_app_iff. cbn. intuition congruence.
  - intros x. destruct (x =? l); auto.
    rewrite <- (rev_involutive (q1 l ++ [p])). apply NoDup_rev.
    rewrite rev_app_distr. cbn. constructor; [rewrite <- in_rev; auto|].
    apply NoDup_rev; auto.
  - intros l' x. rewrite (same_created _ _ SAME1).
    destruct (Z.eqb_spec l' l) as [->|N']; [|apply H5].
    rewrite in_app_iff. intros [X|[->|[]]]; [eapply H5; eauto|].
    rewrite (same_created _ _ S1). exact Cp.
Qed.

Lemma remove_first_link_rep st q l p r :
  rep st q -> q l = p :: r ->
  exists st', remove_first_link st l = Ok (p, st') /\ same st st' /\ rep st' (qrem p q) /\
              my_list (procs st' p) = None.
Proof.
  intros R E. pose proof R as (H1 & H2 & H3 & H4 & H5).
  unfold remove_first_link.
  pose proof (H1 l) as SG. rewrite E in SG. cbn in SG. destruct SG as (SG0 & SG).
  rewrite SG0.
  eexists; split; [reflexivity|].
  match goal with |- same st ?X /\ _ => set (st' := X) end.
  assert (SAME : same st st').
  { unfold st'. eapply same_trans; [|apply same_set_next].
    eapply same_trans; [|apply same_set_my_list].
    destruct (first_link (sems (set_first st l (next_link (procs st p))) l)).
    - apply same_set_first.
    - eapply same_trans; [|apply same_set_last]. apply same_set_first. }
  split; [exact SAME|].
  pose proof (H4 l) as ND. rewrite E in ND. inversion ND as [|? ? Nin ND']; subst.
  assert (Rm : forall x, qrem p q x = if x =? l then r else q x).
  { intros x. unfold qrem. destruct (Z.eqb_spec x l) as [->|N].
    - rewrite E. cbn. destruct (Z.eq_dec p p); [|congruence]. apply remove_notin; auto.
    - apply remove_notin. intros X. apply N. eapply rep_unique; eauto.
      rewrite E; left; auto. }
  assert (Oth : forall x l', l' <> l -> In x (q l') -> x <> p).
  { intros x l' N X ->. apply N. eapply rep_unique; eauto. rewrite E; left; auto. }
  pose proof (seg_first _ _ _ SG) as SF.
  assert (NX : forall x, x <> p -> next_link (procs st' x) = next_link (procs st x)).
  { intros x N. unfold st'. clear -N.
    destruct (first_link (sems (set_first st l (next_link (procs st p))) l)); cbn; destruct (Z.eqb_spec x p); cbn; congruence. }
  assert (FS : forall x, first_link (sems st' x) =
                 if x =? l then next_link (procs st p) else first_link (sems st x)).
  { intros x. unfold st'. clear. destruct (first_link (sems (set_first st l (next_link (procs st p))) l)); cbn; destruct (x =? l); reflexivity. }
  assert (LS : forall x, last_link (sems st' x) =
                 if x =? l then lasto r else last_link (sems st x)).
  { intros x. unfold st'. cbn. rewrite Z.eqb_refl. cbn. rewrite SF.
    destruct r as [|y r]; cbn; destruct (Z.eqb_spec x l) as [->|]; cbn; auto.
    rewrite H2, E. apply lasto_cons. }
  assert (ML : forall x, my_list (procs st' x) =
                 if x =? p then None else my_list (procs st x)).
  { intros x. unfold st'. clear. destruct (first_link (sems (set_first st l (next_link (procs st p))) l)); cbn; destruct (x =? p); reflexivity. }
  split; [|rewrite ML, Z.eqb_refl; reflexivity].
  eapply rep_ext; [exact Rm|]. clearbody st'.
  split; [|split; [|split; [|split]]].
  - intros x. rewrite FS. destruct (Z.eqb_spec x l) as [->|N].
    + eapply seg_frame; [|exact SG]. intros y Hy. apply NX. intros ->. auto.
    + eapply seg_frame; [|apply H1]. intros y Hy. apply NX. eapply Oth; eauto.
  - intros x. rewrite LS. destruct (x =? l); auto.
  - intros x l'. rewrite ML. destruct (Z.eqb_spec x p) as [->|N].
    + split; [discriminate|]. destruct (Z.eqb_spec l' l) as [->|N'].
      * intros X. contradiction.
      * intros X. exfalso. exact (Oth _ _ N' X eq_refl).
    + rewrite H3. destruct (Z.eqb_spec l' l) as [->|N']; [|tauto].
      rewrite E. cbn. intuition congruence.
  - intros x. destruct (x =? l); auto.
  - intros l' x. rewrite (same_created _ _ SAME).
    destruct (Z.eqb_spec l' l) as [->|N']; [|apply H5].
    intros X. apply (H5 l). rewrite E. right; auto.
Qed.

Lemma is_empty_rep st q l : rep st q -> is_empty st l = match q l with [] => true | _ => false end.
Proof.
  intros (H1 & _). unfold is_empty. rewrite (seg_first _ _ _ (H1 l)).
  destruct (q l); reflexivity.
Qed.

Lemma check_links_seg st q l : rep st q -> forall r a f fuel,
  q l = a ++ r -> seg st f r None -> (length r <= fuel)%nat ->
  check_links fuel st l f = true.
Proof.
  intros R. pose proof R as (H1 & H2 & H3 & H4 & H5).
  induction r as [|x r IH]; intros a f fuel E SG L; cbn in SG.
  - subst f. destruct fuel; reflexivity.
  - destruct SG as (-> & SG). destruct fuel; [cbn in L; lia|].
    cbn [check_links]. rewrite !andb_true_iff. split; [split|].
    + apply oeq_true. apply H3. rewrite E. apply in_or_app; right; left; auto.
    + destruct r as [|y r].
      * cbn in SG. rewrite SG, H2, E, lasto_app. cbn. apply Z.eqb_refl.
      * cbn in SG. destruct SG as (-> & _). reflexivity.
    + apply (IH (a ++ [x])); auto.
      * rewrite <- app_assoc. exact E.
      * cbn in L. lia.
Qed.

Lemma check_process_state_rep st q : rep st q -> check_process_state st = true.
Proof.
  intros R. unfold check_process_state. apply forallb_forall. intros k _.
  unfold check_list. pose proof R as (H1 & H2 & _).
  rewrite H2. specialize (H1 (Z.of_nat k)) as SG.
  destruct (q (Z.of_nat k)) as [|x r] eqn:E.
  - cbn in SG. rewrite SG. reflexivity.
  - pose proof SG as (F & _). rewrite F.
    destruct (lasto (x :: r)) eqn:EL; [|apply lasto_nil_iff in EL; discriminate].
    eapply (check_links_seg st q _ R (x :: r) []); auto.
    + rewrite <- F. exact SG.
    + rewrite <- E. eapply rep_len; eauto.
Qed.
