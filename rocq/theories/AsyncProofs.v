(** Proofs for the queues of asynchronous calls. *)
From Coq Require Import Permutation.
From Verif Require Import Base Async AsyncSpec.
Local Open Scope Z_scope.

Lemma ptr_eqb_spec a b : reflect (a = b) (ptr_eqb a b).
Proof.
  destruct a, b; cbn; try (constructor; congruence).
  destruct (Z.eqb_spec a a0); constructor; congruence.
Qed.

Lemma upd_same {A} (f : Z -> A) k v : upd f k v k = v.
Proof. unfold upd. rewrite Z.eqb_refl. auto. Qed.
Lemma upd_other {A} (f : Z -> A) k v x : x <> k -> upd f k v x = f x.
Proof. unfold upd. destruct (Z.eqb_spec x k); congruence. Qed.

(** ** The queue of _gst_async_call *)
Definition cell := (Z * call)%type.

Fixpoint chain (h : Z -> option entry) (p : ptr) (l : list cell) : Prop :=
  match l with
  | [] => p = Tail
  | (a, c) :: r => p = Node a /\ exists n, h a = Some n /\ what n = c /\ chain h (next n) r
  end.

Definition addrs (l : list cell) : list Z := map fst l.

Lemma chain_frame h h' p l : (forall a, In a (addrs l) -> h' a = h a) -> chain h p l -> chain h' p l.
Proof.
  revert p. induction l as [|[a c] l IH]; cbn; auto.
  intros p F (-> & n & E & W & C). split; auto. exists n. rewrite F by auto.
  split; [exact E|]. split; [exact W|]. apply IH; auto.
Qed.

Definition owns (p : poster) (a : Z) : Prop := at_ p = Link a \/ at_ p = Swing a.

Definition vm_has (h : Z -> option entry) (v : vpc) (a b : list cell) : Prop :=
  match v with
  | Away => a = [] /\ b = []
  | Rev s r => chain h s a /\ chain h r b
  | Run s => a = [] /\ chain h s b
  end.

(** [q] is the queue, [v] what the VM has still to reverse, [r] what it has
    already reversed. *)
Definition inv (prog : Z -> list Z) (st : state) (q v r : list cell) : Prop :=
  chain (heap st) (head st) q /\ vm_has (heap st) (vm st) v r /\
  NoDup (addrs (q ++ v ++ r)) /\
  (forall a, In a (addrs (q ++ v ++ r)) -> heap st a <> None) /\
  (forall i a, owns (posters st i) a ->
     ~ In a (addrs (q ++ v ++ r)) /\
     exists n c t, heap st a = Some n /\ what n = (i, c) /\ todo (posters st i) = c :: t) /\
  (forall i j a, owns (posters st i) a -> owns (posters st j) a -> i = j) /\
  (forall i, sent_by i (log st ++ map snd (rev v ++ r) ++ map snd (rev q)) ++ todo (posters st i) = prog i).

Lemma sent_app i a b : sent_by i (a ++ b) = sent_by i a ++ sent_by i b.
Proof. unfold sent_by. rewrite filter_app, map_app. auto. Qed.

Lemma chain_None h p l a : chain h p l -> In a (addrs l) -> h a <> None.
Proof.
  revert p. induction l as [|[x c] l IH]; cbn; [tauto|].
  intros p (-> & n & E & W & C) [->|H]; [congruence|eauto].
Qed.

Lemma vm_frame h h' w v r : (forall a, In a (addrs (v ++ r)) -> h' a = h a) ->
  vm_has h w v r -> vm_has h' w v r.
Proof.
  intros F. unfold addrs in F. rewrite map_app in F.
  destruct w; cbn; auto; intros (A & B); (split; [|]); auto;
    eapply chain_frame; try eassumption; intros a H; apply F, in_or_app; auto.
Qed.

Ltac addrs_simpl := unfold addrs in *; rewrite ?map_app in *; cbn [map fst app] in *.

Lemma start_inv prog : inv prog (start prog) [] [] [].
Proof.
  unfold start. split; [reflexivity|]. split; [cbn; auto|]. split; [constructor|].
  split; [cbn; tauto|]. split; [intros i a [H|H]; cbn in H; discriminate|].
  split; [intros i j a [H|H]; cbn in H; discriminate|].
  reflexivity.
Qed.

Lemma post_inv prog st q v r i a st' :
  inv prog st q v r -> post_step st i a = Ok st' -> exists q', inv prog st' q' v r.
Proof.
  intros (C & V & ND & AL & OW & OU & BY) H. unfold post_step in H.
  set (p := posters st i) in *.
  assert (OTH : forall x j b, j <> i -> owns (upd (posters st) i x j) b -> owns (posters st j) b).
  { intros x j b Hj. rewrite upd_other by auto. auto. }
  destruct (at_ p) as [|e|e] eqn:E.
  - destruct (todo p) as [|c t] eqn:Et; [discriminate|].
    destruct (heap st a) eqn:Ea; [discriminate|]. inversion H; subst st'; clear H.
    exists q. split; [|split; [|split; [|split; [|split; [|split]]]]]; cbn [heap head vm posters log].
    + eapply chain_frame; [|exact C]. intros b Hb. apply upd_other. intros ->.
      eapply chain_None; eauto.
    + eapply vm_frame; [|exact V]. intros b Hb. apply upd_other. intros ->.
      apply (AL a); auto. unfold addrs in *. rewrite !map_app in *. rewrite !in_app_iff in *. tauto.
    + exact ND.
    + intros b Hb. unfold upd. destruct (b =? a); [congruence|auto].
    + intros j b Hj. destruct (Z.eq_dec j i) as [->|N].
      * rewrite upd_same in Hj |- *. destruct Hj as [Hj|Hj]; cbn in Hj; inversion Hj; subst b.
        split; [intros X; apply (AL a X Ea)|]. cbn.
        exists (mkE (i, c) Null), c, t. rewrite upd_same. auto.
      * rewrite (upd_other (posters st)) in Hj |- * by auto. destruct (OW j b Hj) as (X & n & c' & t' & A1 & A2 & A3).
        split; auto. exists n, c', t'. rewrite upd_other by congruence. auto.
    + intros j k b Hj Hk. destruct (Z.eq_dec j i) as [->|N], (Z.eq_dec k i) as [->|N']; auto.
      * rewrite upd_same in Hj. destruct Hj as [Hj|Hj]; cbn in Hj; inversion Hj; subst b.
        rewrite upd_other in Hk by auto. destruct (OW k a Hk) as (_ & n & ? & ? & X & _). congruence.
      * rewrite upd_same in Hk. destruct Hk as [Hk|Hk]; cbn in Hk; inversion Hk; subst b.
        rewrite upd_other in Hj by auto. destruct (OW j a Hj) as (_ & n & ? & ? & X & _). congruence.
      * eapply OU; eauto.
    + intros j. rewrite <- (BY j). f_equal. destruct (Z.eq_dec j i) as [->|N].
      * rewrite upd_same. cbn. symmetry. exact Et.
      * rewrite upd_other; auto.
  - destruct (heap st e) as [n|] eqn:Ee; [|discriminate]. inversion H; subst st'; clear H.
    destruct (OW i e (or_introl E)) as (Ni & n' & c & t & A1 & A2 & A3).
    rewrite Ee in A1. inversion A1; subst n'.
    exists q. split; [|split; [|split; [|split; [|split; [|split]]]]]; cbn [heap head vm posters log].
    + eapply chain_frame; [|exact C]. intros b Hb. apply upd_other. intros ->.
      apply Ni. unfold addrs in *. rewrite !map_app, !in_app_iff. auto.
    + eapply vm_frame; [|exact V]. intros b Hb. apply upd_other. intros ->.
      apply Ni. unfold addrs in *. rewrite !map_app in *. rewrite !in_app_iff in *. tauto.
    + exact ND.
    + intros b Hb. unfold upd. destruct (b =? e); [congruence|auto].
    + intros j b Hj. destruct (Z.eq_dec j i) as [->|N].
      * rewrite upd_same in Hj |- *. destruct Hj as [Hj|Hj]; cbn in Hj; inversion Hj; subst b.
        split; [exact Ni|]. exists (mkE (what n) (head st)), c, t. rewrite upd_same. cbn. auto.
      * rewrite (upd_other (posters st)) in Hj |- * by auto. destruct (OW j b Hj) as (X & n1 & c' & t' & B1 & B2 & B3).
        split; auto. exists n1, c', t'. rewrite upd_other; auto.
        intros ->. apply N. eapply OU; [exact Hj|left; exact E].
    + intros j k b Hj Hk. destruct (Z.eq_dec j i) as [->|N], (Z.eq_dec k i) as [->|N']; auto.
      * rewrite upd_same in Hj. destruct Hj as [Hj|Hj]; cbn in Hj; inversion Hj; subst b.
        rewrite upd_other in Hk by auto. eapply OU; [left; exact E|exact Hk].
      * rewrite upd_same in Hk. destruct Hk as [Hk|Hk]; cbn in Hk; inversion Hk; subst b.
        rewrite upd_other in Hj by auto. eapply OU; [exact Hj|left; exact E].
      * eapply OU; eauto.
    + intros j. rewrite <- (BY j). f_equal. destruct (Z.eq_dec j i) as [->|N].
      * rewrite upd_same. reflexivity.
      * rewrite upd_other; auto.
  - destruct (heap st e) as [n|] eqn:Ee; [|discriminate].
    destruct (OW i e (or_intror E)) as (Ni & n' & c & t & A1 & A2 & A3).
    rewrite Ee in A1. inversion A1; subst n'.
    destruct (ptr_eqb_spec (head st) (next n)) as [Eh|Eh]; inversion H; subst st'; clear H.
    + exists ((e, (i, c)) :: q).
      assert (PR : posters st i = mkT (c :: t) (Swing e)).
      { destruct (posters st i) as [x y]. cbn in A3, E. subst p. cbn in E. congruence. }
      split; [|split; [|split; [|split; [|split; [|split]]]]]; cbn [heap head vm posters log].
      * cbn. split; auto. exists n. rewrite <- Eh. auto.
      * exact V.
      * cbn. constructor; auto.
      * cbn. intros b [<-|Hb]; [congruence|auto].
      * intros j b Hj. destruct (Z.eq_dec j i) as [->|N].
        { rewrite upd_same in Hj. destruct Hj as [Hj|Hj]; cbn in Hj; discriminate. }
        rewrite (upd_other (posters st)) in Hj |- * by auto. destruct (OW j b Hj) as (X & B).
        split; [|exact B]. cbn. intros [<-|Y]; [|auto].
        apply N. eapply OU; [exact Hj|right; exact E].
      * intros j k b Hj Hk. destruct (Z.eq_dec j i) as [->|N], (Z.eq_dec k i) as [->|N']; auto.
        { rewrite upd_same in Hj. destruct Hj as [Hj|Hj]; cbn in Hj; discriminate. }
        { rewrite upd_same in Hk. destruct Hk as [Hk|Hk]; cbn in Hk; discriminate. }
        eapply OU; eauto.
      * intros j. rewrite <- (BY j). cbn [rev].
        rewrite (map_app snd (rev q)). rewrite !sent_app, <- !app_assoc. do 3 f_equal.
        destruct (Z.eq_dec j i) as [->|N].
        { rewrite upd_same, PR. unfold sent_by. cbn. rewrite Z.eqb_refl. cbn.
          subst p. rewrite A3. reflexivity. }
        rewrite upd_other by auto. unfold sent_by. cbn. destruct (Z.eqb_spec i j); [congruence|]. reflexivity.
    + exists q. split; [|split; [|split; [|split; [|split; [|split]]]]]; cbn [heap head vm posters log]; auto.
      * intros j b Hj. destruct (Z.eq_dec j i) as [->|N].
        { rewrite upd_same in Hj |- *. destruct Hj as [Hj|Hj]; cbn in Hj; inversion Hj; subst b.
          split; auto. exists n, c, t. auto. }
        rewrite (upd_other (posters st)) in Hj |- * by auto. auto.
      * intros j k b Hj Hk.
        assert (X : forall m, owns (upd (posters st) i (mkT (todo p) (Link e)) m) b -> owns (posters st m) b).
        { intros m Hm. destruct (Z.eq_dec m i) as [->|Nm]; [|rewrite upd_other in Hm; auto].
          rewrite upd_same in Hm. destruct Hm as [Hm|Hm]; cbn in Hm; inversion Hm; subst b.
          right. exact E. }
        eapply OU; eauto.
      * intros j. rewrite <- (BY j). f_equal. destruct (Z.eq_dec j i) as [->|N].
        { rewrite upd_same. reflexivity. }
        rewrite upd_other; auto.
Qed.

Lemma post_not_ub prog st q v r i a : inv prog st q v r ->
  post_step st i a = Err \/ exists st', post_step st i a = Ok st'.
Proof.
  intros (C & V & ND & AL & OW & OU & BY). unfold post_step.
  destruct (at_ (posters st i)) as [|e|e] eqn:E.
  - destruct (todo (posters st i)); auto. destruct (heap st a); eauto.
  - destruct (OW i e (or_introl E)) as (_ & n & c & t & A1 & _). rewrite A1. eauto.
  - destruct (OW i e (or_intror E)) as (_ & n & c & t & A1 & _). rewrite A1.
    destruct (ptr_eqb _ _); eauto.
Qed.

(** The VM. [measure] bounds what it does alone. *)
Definition phase (w : vpc) : nat := match w with Away => 0 | Rev _ _ => 2 | Run _ => 1 end.
Definition measure (st : state) (q v r : list cell) : nat :=
  (5 * length q + 2 * length v + length r + phase (vm st))%nat.

Lemma vm_inv prog st q v r : inv prog st q v r ->
  exists st' q' v' r', vm_step st = Ok st' /\ inv prog st' q' v' r' /\
    posters st' = posters st /\
    (vm st <> Away \/ q <> [] -> (measure st' q' v' r' < measure st q v r)%nat).
Proof.
  intros (C & V & ND & AL & OW & OU & BY). unfold vm_step.
  destruct (vm st) as [|s t|s] eqn:EV; cbn in V.
  - destruct V as (-> & ->). cbn [app] in *. rewrite app_nil_r in *.
    exists (mkSt (heap st) Tail (posters st) (Rev (head st) Tail) (log st)), [], q, [].
    split; [reflexivity|]. split; [|split; [reflexivity|]].
    + split; [reflexivity|]. split; [cbn; auto|]. cbn [app heap posters log]. rewrite app_nil_r.
      split; [exact ND|]. split; [exact AL|]. split; [exact OW|]. split; [exact OU|].
      intros i. rewrite <- (BY i).
      cbn [map rev app]. rewrite !app_nil_r. reflexivity.
    + intros [X|X]; [congruence|]. unfold measure. rewrite EV. cbn. destruct q; [congruence|cbn; lia].
  - destruct V as (V1 & V2). destruct v as [|[e c] v]; cbn in V1.
    + subst s. exists (mkSt (heap st) (head st) (posters st) (Run t) (log st)), q, [], r.
      split; [reflexivity|]. split; [|split; [reflexivity|]].
      * split; [exact C|]. split; [cbn; auto|]. split; [exact ND|]. split; [exact AL|].
        split; [exact OW|]. split; [exact OU|]. exact BY.
      * intros _. unfold measure. rewrite EV. cbn. lia.
    + destruct V1 as (-> & n & En & W & V1). rewrite En.
      set (h' := upd (heap st) e (Some (mkE (what n) t))).
      assert (PERM : Permutation (addrs (q ++ v ++ (e, c) :: r)) (addrs (q ++ ((e, c) :: v) ++ r))).
      { unfold addrs. apply Permutation_map, Permutation_app_head.
        cbn. symmetry. apply Permutation_middle. }
      assert (Nin : ~ In e (addrs q) /\ ~ In e (addrs v) /\ ~ In e (addrs r)).
      { pose proof (Permutation_NoDup (Permutation_sym PERM) ND) as ND'.
        unfold addrs in ND'. rewrite app_assoc, map_app in ND'. cbn in ND'.
        apply NoDup_remove_2 in ND'. rewrite !map_app, !in_app_iff in ND'. unfold addrs. tauto. }
      assert (HU : forall b, b <> e -> h' b = heap st b) by (intros; apply upd_other; auto).
      exists (mkSt h' (head st) (posters st) (Rev (next n) (Node e)) (log st)), q, v, ((e, c) :: r).
      split; [reflexivity|]. split; [|split; [reflexivity|]].
      * split; [|split; [|split; [|split; [|split; [|split]]]]]; cbn [heap head vm posters log].
        -- eapply chain_frame; [|exact C]. intros b Hb. apply HU. intros ->. tauto.
        -- cbn. split; [eapply chain_frame; [|exact V1]; intros b Hb; apply HU; intros ->; tauto|].
           split; auto. exists (mkE (what n) t). unfold h'. rewrite upd_same. cbn.
           split; auto. split; auto. fold h'.
           eapply chain_frame; [|exact V2]. intros b Hb. apply HU. intros ->. tauto.
        -- eapply Permutation_NoDup; [symmetry; exact PERM|exact ND].
        -- intros b Hb. apply (Permutation_in _ PERM) in Hb.
           unfold h', upd. destruct (b =? e); [congruence|auto].
        -- intros j b Hj. destruct (OW j b Hj) as (X & m & c' & t' & B).
           split; [intros Y; apply X; apply (Permutation_in _ PERM Y)|].
           exists m, c', t'. rewrite HU; auto. intros ->. apply X.
           unfold addrs. rewrite !map_app, !in_app_iff. cbn. auto.
        -- exact OU.
        -- intros j. rewrite <- (BY j). cbn [rev]. rewrite <- app_assoc. reflexivity.
      * intros _. unfold measure. rewrite EV. cbn. lia.
  - destruct V as (-> & V). destruct r as [|[e c] r]; cbn in V.
    + subst s. exists (mkSt (heap st) (head st) (posters st) Away (log st)), q, [], [].
      split; [reflexivity|]. split; [|split; [reflexivity|]].
      * split; [exact C|]. split; [cbn; auto|]. split; [exact ND|]. split; [exact AL|].
        split; [exact OW|]. split; [exact OU|]. exact BY.
      * intros _. unfold measure. rewrite EV. cbn. lia.
    + destruct V as (-> & n & En & W & V). rewrite En. cbn [app] in *.
      set (h' := upd (heap st) e None).
      assert (ND' := ND). unfold addrs in ND'. rewrite map_app in ND'. cbn in ND'.
      pose proof (NoDup_remove_1 _ _ _ ND') as ND1. apply NoDup_remove_2 in ND'.
      rewrite in_app_iff in ND'.
      assert (HU : forall b, b <> e -> h' b = heap st b) by (intros; apply upd_other; auto).
      exists (mkSt h' (head st) (posters st) (Run (next n)) (log st ++ [what n])), q, [], r.
      split; [reflexivity|]. split; [|split; [reflexivity|]].
      * split; [|split; [|split; [|split; [|split; [|split]]]]]; cbn [heap head vm posters log app].
        -- eapply chain_frame; [|exact C]. intros b Hb. apply HU. intros ->. unfold addrs in Hb. tauto.
        -- cbn. split; auto. eapply chain_frame; [|exact V]. intros b Hb. apply HU. intros ->.
           unfold addrs in Hb. tauto.
        -- unfold addrs. rewrite map_app. exact ND1.
        -- intros b Hb. unfold addrs in Hb. rewrite map_app, in_app_iff in Hb.
           rewrite HU by (intros ->; tauto). apply AL. unfold addrs. rewrite map_app, in_app_iff. cbn. tauto.
        -- intros j b Hj. destruct (OW j b Hj) as (X & m & c' & t' & B).
           unfold addrs in *. rewrite map_app, in_app_iff in *. cbn in X.
           split; [tauto|]. exists m, c', t'. rewrite HU by (intros ->; tauto). exact B.
        -- exact OU.
        -- intros j. rewrite <- (BY j). cbn [rev app map]. rewrite <- !app_assoc. cbn [app snd].
           rewrite W. reflexivity.
      * intros _. unfold measure. rewrite EV. cbn. lia.
Qed.

Lemma run_inv prog h : forall st q v r st', inv prog st q v r -> run st h = Ok st' ->
  exists q' v' r', inv prog st' q' v' r'.
Proof.
  induction h as [|e h IH]; intros st q v r st' I H; cbn in H.
  - inversion H; subst; eauto.
  - destruct e as [i a|]; cbn in H.
    + destruct (post_step st i a) as [st1| | | |] eqn:E; cbn in H; try discriminate.
      destruct (post_inv _ _ _ _ _ _ _ _ I E) as (q' & I'). eauto.
    + destruct (vm_inv _ _ _ _ _ I) as (st1 & q' & v' & r' & E & I' & _).
      rewrite E in H. cbn in H. eauto.
Qed.

Lemma run_never_ub prog h : forall st q v r, inv prog st q v r ->
  run st h = Err \/ exists st', run st h = Ok st'.
Proof.
  induction h as [|e h IH]; intros st q v r I; cbn; eauto.
  destruct e as [i a|]; cbn.
  - destruct (post_not_ub _ _ _ _ _ i a I) as [->|(st1 & E)]; auto. rewrite E. cbn.
    destruct (post_inv _ _ _ _ _ _ _ _ I E) as (q' & I'). eauto.
  - destruct (vm_inv _ _ _ _ _ I) as (st1 & q' & v' & r' & E & I' & _). rewrite E. cbn. eauto.
Qed.

Lemma inv_prefix prog st q v r i : inv prog st q v r -> prefix (sent_by i (log st)) (prog i).
Proof.
  intros (_ & _ & _ & _ & _ & _ & BY). exists (sent_by i (map snd (rev v ++ r) ++ map snd (rev q)) ++ todo (posters st i)).
  rewrite <- (BY i), sent_app, <- app_assoc. auto.
Qed.

Lemma vm_drains prog : forall n st q v r, (measure st q v r <= n)%nat -> inv prog st q v r ->
  exists k st', run st (repeat Vm k) = Ok st' /\ vm st' = Away /\ head st' = Tail /\
    posters st' = posters st /\
    forall i, sent_by i (log st') ++ todo (posters st' i) = prog i.
Proof.
  induction n as [|n IH]; intros st q v r M I.
  - assert (Z0 : q = [] /\ v = [] /\ r = [] /\ vm st = Away).
    { unfold measure in M. destruct q, v, r, (vm st); cbn in M; try lia; auto. }
    destruct Z0 as (-> & -> & -> & E). destruct I as (C & V & _ & _ & _ & _ & BY).
    exists 0%nat, st. cbn. split; auto. split; auto. split; auto. split; auto.
    intros i. rewrite <- (BY i). cbn. rewrite app_nil_r. auto.
  - destruct (vm_inv _ _ _ _ _ I) as (st1 & q' & v' & r' & E & I' & EP & DEC).
    assert (D : (vm st <> Away \/ q <> []) \/ (vm st = Away /\ q = [])).
    { destruct (vm st); [destruct q|left; left; discriminate|left; left; discriminate]; auto.
      left; right; discriminate. }
    destruct D as [D|(Ev & ->)].
    + specialize (DEC D). destruct (IH st1 q' v' r' ltac:(lia) I') as (k & st' & R & A & B & P & BY').
      exists (S k), st'. cbn. rewrite E. cbn. split; auto. split; auto. split; auto.
      split; [congruence|auto].
    + destruct I as (C & V & _ & _ & _ & _ & BY). rewrite Ev in V. cbn in V. destruct V as (-> & ->).
      exists 0%nat, st. cbn. split; auto. split; auto. split; auto. split; auto.
      intros i. rewrite <- (BY i). cbn. rewrite app_nil_r. auto.
Qed.
