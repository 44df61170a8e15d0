(** Proofs about SharedQueue. *)
From Verif Require Import Base SharedQ SharedQSpec.
Local Open Scope Z_scope.

Fixpoint wsum (f : thread -> Z) (l : list thread) : Z :=
  match l with [] => 0 | t :: r => f t + wsum f r end.

Lemma wsum_set f l : forall i t t', nth_error l i = Some t ->
  wsum f (set_nth i t' l) = wsum f l - f t + f t'.
Proof.
  induction l as [|x l IH]; intros [|i] t t' H; cbn in *; try discriminate.
  - injection H as <-. lia.
  - rewrite (IH i t t' H). lia.
Qed.

Lemma wsum_ge f l : (forall t, 0 <= f t) -> 0 <= wsum f l.
Proof. intros N. induction l as [|x l IH]; cbn; [lia|]. specialize (N x). lia. Qed.

Lemma wsum_in f l : (forall t, 0 <= f t) -> forall i t, nth_error l i = Some t -> f t <= wsum f l.
Proof.
  intros N. induction l as [|x l IH]; intros [|i] t H; cbn in *; try discriminate.
  - injection H as ->. pose proof (wsum_ge f l N). lia.
  - specialize (IH i t H). specialize (N x). lia.
Qed.

Lemma wsum_zero f l : (forall i t, nth_error l i = Some t -> f t = 0) -> wsum f l = 0.
Proof.
  induction l as [|x l IH]; intros H; cbn; auto.
  rewrite (H O x eq_refl), IH; auto. intros i t E. apply (H (S i) t E).
Qed.

Lemma nth_set {A} (l : list A) : forall i j x,
  nth_error (set_nth i x l) j = if Nat.eqb i j then (match nth_error l j with Some _ => Some x | None => None end)
                                else nth_error l j.
Proof.
  induction l as [|y l IH]; intros [|i] [|j] x; cbn; auto.
  - destruct (Nat.eqb i j); auto.
Qed.

Lemma nth_set_same {A} (l : list A) i x t : nth_error l i = Some t -> nth_error (set_nth i x l) i = Some x.
Proof. intros H. rewrite nth_set, Nat.eqb_refl, H. auto. Qed.
Lemma nth_set_other {A} (l : list A) i j x : i <> j -> nth_error (set_nth i x l) j = nth_error l j.
Proof. intros H. rewrite nth_set. destruct (Nat.eqb_spec i j); congruence. Qed.

(** Who holds queueSem, and which elements are accounted for by a process rather than by
    valueReady. *)
Definition holds (t : thread) : Z := match at_ t with InM | OutM _ => 1 | _ => 0 end.
Definition weight (t : thread) : Z :=
  match at_ t with
  | Idle | BlockV => 0
  | GotV => 1
  | BlockM | InM => match todo t with Put _ :: _ => 0 | _ => 1 end
  | OutM _ => match todo t with Next :: _ => 0 | _ => 1 end
  | SigV _ => 1
  end.

Definition blockm (t : thread) : Prop := at_ t = BlockM.
Definition blockv (t : thread) : Prop := at_ t = BlockV.
Definition typed (t : thread) : Prop :=
  match at_ t with
  | Idle => True
  | BlockV | GotV => exists o r, todo t = o :: r /\ (o = Next \/ o = Peek)
  | BlockM | InM => exists o r, todo t = o :: r
  | OutM x => (exists v r, todo t = Put v :: r /\ x = None) \/
              (exists v r, x = Some v /\ (todo t = Next :: r \/ todo t = Peek :: r))
  | SigV x => (exists v r, todo t = Put v :: r /\ x = None) \/ (exists v r, x = Some v /\ todo t = Peek :: r)
  end.

Definition members (P : thread -> Prop) (w : list nat) (l : list thread) : Prop :=
  forall i, In i w <-> exists t, nth_error l i = Some t /\ P t.

(** [dm], [dv]: signals that have still to be sent. *)
Definition pinv (dm dv : Z) (st : shared) : Prop :=
  msig st + wsum holds (threads st) + dm = 1 /\ 0 <= msig st /\ 0 <= vsig st /\
  vsig st + wsum weight (threads st) + dv = Z.of_nat (length (queue st)) /\
  (mwait st <> [] -> msig st = 0) /\ (vwait st <> [] -> vsig st = 0) /\
  NoDup (mwait st) /\ NoDup (vwait st) /\
  members blockm (mwait st) (threads st) /\ members blockv (vwait st) (threads st) /\
  (forall i t, nth_error (threads st) i = Some t -> typed t).

Definition inv (st : shared) : Prop := pinv 0 0 st.

Lemma pinv_change dm dv dm' dv' st st' i t t' :
  pinv dm dv st -> nth_error (threads st) i = Some t -> threads st' = set_nth i t' (threads st) ->
  msig st' + holds t' + dm' = msig st + holds t + dm -> 0 <= msig st' -> 0 <= vsig st' ->
  vsig st' + weight t' + dv' - Z.of_nat (length (queue st')) =
    vsig st + weight t + dv - Z.of_nat (length (queue st)) ->
  (mwait st' <> [] -> msig st' = 0) -> (vwait st' <> [] -> vsig st' = 0) ->
  NoDup (mwait st') -> NoDup (vwait st') ->
  (In i (mwait st') <-> blockm t') -> (forall j, j <> i -> (In j (mwait st') <-> In j (mwait st))) ->
  (In i (vwait st') <-> blockv t') -> (forall j, j <> i -> (In j (vwait st') <-> In j (vwait st))) ->
  typed t' -> pinv dm' dv' st'.
Proof.
  intros (A1 & A2 & A3 & A4 & A5 & A6 & A7 & A8 & A9 & A10 & A11) E Th M1 M2 V1 V2 W1 W2 N1 N2 B1 B2 C1 C2 T.
  assert (Mem : forall P w w', members P w (threads st) -> (In i w' <-> P t') ->
    (forall j, j <> i -> (In j w' <-> In j w)) -> members P w' (threads st')).
  { intros P w w' M X Y j. rewrite Th. destruct (Nat.eq_dec i j) as [<-|N].
    - rewrite (nth_set_same _ _ _ _ E). rewrite X. split.
      + intros H. exists t'. auto.
      + intros (u & H & Q). injection H as <-. auto.
    - rewrite nth_set_other by auto. rewrite Y by auto. apply M. }
  unfold pinv. rewrite Th, !(wsum_set _ _ _ _ _ E).
  split; [lia|]. split; [lia|]. split; [lia|]. split; [lia|]. split; [auto|]. split; [auto|].
  split; [auto|]. split; [auto|]. split; [rewrite <- Th; eapply Mem; eauto|].
  split; [rewrite <- Th; eapply Mem; eauto|].
  intros j u H. destruct (Nat.eq_dec i j) as [<-|N].
  - rewrite (nth_set_same _ _ _ _ E) in H. injection H as <-. auto.
  - rewrite nth_set_other in H by auto. eauto.
Qed.

Lemma NoDup_snoc (l : list nat) x : NoDup l -> ~ In x l -> NoDup (l ++ [x]).
Proof.
  induction l as [|y l IH]; cbn; intros ND N.
  - constructor; [auto|constructor].
  - inversion ND; subst. constructor; [rewrite in_app_iff; cbn; intuition congruence|].
    apply IH; tauto.
Qed.

Lemma not_member P w l i t : members P w l -> nth_error l i = Some t -> ~ P t -> ~ In i w.
Proof. intros M E N H. apply M in H as (u & H & Q). congruence. Qed.

Lemma holds_ge t : 0 <= holds t.
Proof. unfold holds. destruct (at_ t); lia. Qed.
Lemma weight_ge t : 0 <= weight t.
Proof. unfold weight. destruct (at_ t); try lia; destruct (todo t) as [|[] ?]; lia. Qed.

Lemma wait_m_inv st i t : inv st -> nth_error (threads st) i = Some t ->
  (at_ t = GotV \/ (at_ t = Idle /\ exists v r, todo t = Put v :: r)) -> inv (wait_m st i t).
Proof.
  intros I E H. pose proof I as (A1 & A2 & A3 & A4 & A5 & A6 & A7 & A8 & A9 & A10 & A11).
  assert (T : exists o r, todo t = o :: r).
  { destruct H as [H|(_ & v & r & H)]; [|eauto]. pose proof (A11 _ _ E) as X. unfold typed in X. rewrite H in X.
    destruct X as (o & r & X & _). eauto. }
  assert (Hh : holds t = 0) by (unfold holds; destruct H as [-> | (-> & _)]; auto).
  assert (Nm : ~ In i (mwait st)).
  { eapply not_member; eauto. unfold blockm. destruct H as [-> | (-> & _)]; discriminate. }
  assert (Nv : ~ In i (vwait st)).
  { eapply not_member; eauto. unfold blockv. destruct H as [-> | (-> & _)]; discriminate. }
  assert (Wt : forall c, c = BlockM \/ c = InM -> weight (move t c) = weight t).
  { intros c C. destruct H as [H | (H & v & r & H2)]; unfold weight.
    - pose proof (A11 _ _ E) as X. unfold typed in X. rewrite H in X |- *.
      destruct X as (o & r & X & [-> | ->]); destruct C as [-> | ->]; cbn; rewrite X; auto.
    - rewrite H. destruct C as [-> | ->]; cbn; rewrite H2; auto. }
  unfold wait_m. destruct (Z.ltb_spec 0 (msig st)) as [S|S].
  - eapply (pinv_change 0 0 0 0 st _ i t _ I E); [reflexivity|..]; cbn [msig mwait vsig vwait queue go];
      try (rewrite Wt by auto); try lia; auto.
    + change (holds (move t InM)) with 1. lia.
    + split; [tauto|discriminate].
    + intros; tauto.
    + split; [tauto|discriminate].
    + intros; tauto.
  - assert (S0 : msig st = 0) by lia.
    eapply (pinv_change 0 0 0 0 st _ i t _ I E); [reflexivity|..]; cbn [msig mwait vsig vwait queue go];
      try (rewrite Wt by auto); try lia; auto.
    + change (holds (move t BlockM)) with 0. lia.
    + apply NoDup_snoc; auto.
    + rewrite in_app_iff. cbn. unfold blockm. cbn. tauto.
    + intros j N. rewrite in_app_iff. cbn. intuition congruence.
    + split; [tauto|discriminate].
    + intros; tauto.
Qed.

Lemma wait_v_inv st i t : inv st -> nth_error (threads st) i = Some t -> at_ t = Idle ->
  (exists o r, todo t = o :: r /\ (o = Next \/ o = Peek)) -> inv (wait_v st i t).
Proof.
  intros I E H T. pose proof I as (A1 & A2 & A3 & A4 & A5 & A6 & A7 & A8 & A9 & A10 & A11).
  assert (Nm : ~ In i (mwait st)) by (eapply not_member; eauto; unfold blockm; congruence).
  assert (Nv : ~ In i (vwait st)) by (eapply not_member; eauto; unfold blockv; congruence).
  unfold wait_v. destruct (Z.ltb_spec 0 (vsig st)) as [S|S].
  - eapply (pinv_change 0 0 0 0 st _ i t _ I E); [reflexivity|..]; cbn [msig mwait vsig vwait queue go]; try lia; auto.
    + unfold holds. cbn. rewrite H. lia.
    + unfold weight. cbn. rewrite H. lia.
    + split; [tauto|discriminate].
    + intros; tauto.
    + split; [tauto|discriminate].
    + intros; tauto.
  - eapply (pinv_change 0 0 0 0 st _ i t _ I E); [reflexivity|..]; cbn [msig mwait vsig vwait queue go]; try lia; auto.
    + unfold holds. cbn. rewrite H. lia.
    + unfold weight. cbn. rewrite H. lia.
    + apply NoDup_snoc; auto.
    + split; [tauto|discriminate].
    + intros; tauto.
    + rewrite in_app_iff. cbn. unfold blockv. cbn. tauto.
    + intros j N. rewrite in_app_iff. cbn. intuition congruence.
Qed.

Lemma signal_m_inv dv st : pinv 1 dv st -> pinv 0 dv (signal_m st).
Proof.
  intros I. pose proof I as (A1 & A2 & A3 & A4 & A5 & A6 & A7 & A8 & A9 & A10 & A11).
  pose proof (wsum_ge holds (threads st) holds_ge) as Hg.
  unfold signal_m. destruct (mwait st) as [|w r] eqn:W.
  - unfold pinv. cbn. split; [lia|]. split; [lia|]. split; [lia|]. split; [lia|]. split; [congruence|].
    auto 10.
  - pose proof (A9 w) as X. destruct X as [X _]. specialize (X (or_introl eq_refl)) as (t & E & B).
    rewrite E. unfold blockm in B. inversion A7 as [|? ? Nw ND]; subst.
    assert (Nv : ~ In w (vwait st)) by (eapply not_member; eauto; unfold blockv; congruence).
    pose proof (A11 _ _ E) as T. unfold typed in T. rewrite B in T.
    eapply (pinv_change 1 dv 0 dv st _ w t _ I E); [reflexivity|..]; cbn [msig mwait vsig vwait queue go]; try lia; auto.
    + unfold holds. cbn. rewrite B. lia.
    + unfold weight. cbn. rewrite B. lia.
    + split; [tauto|discriminate].
    + intros j N. rewrite W. cbn. intuition congruence.
    + split; [tauto|discriminate].
    + intros; tauto.
Qed.

Lemma signal_v_inv dm st : pinv dm 1 st -> pinv dm 0 (signal_v st).
Proof.
  intros I. pose proof I as (A1 & A2 & A3 & A4 & A5 & A6 & A7 & A8 & A9 & A10 & A11).
  unfold signal_v. destruct (vwait st) as [|w r] eqn:W.
  - unfold pinv. cbn. split; [lia|]. split; [lia|]. split; [lia|]. split; [lia|]. split; [auto|]. split; [congruence|].
    auto 10.
  - pose proof (A10 w) as X. destruct X as [X _]. specialize (X (or_introl eq_refl)) as (t & E & B).
    rewrite E. unfold blockv in B. inversion A8 as [|? ? Nw ND]; subst.
    assert (Nm : ~ In w (mwait st)) by (eapply not_member; eauto; unfold blockm; congruence).
    pose proof (A11 _ _ E) as T. unfold typed in T. rewrite B in T.
    eapply (pinv_change dm 1 dm 0 st _ w t _ I E); [reflexivity|..]; cbn [msig mwait vsig vwait queue go]; try lia; auto.
    + unfold holds. cbn. rewrite B. lia.
    + unfold weight. cbn. rewrite B. lia.
    + intros _. apply A6. discriminate.
    + split; [tauto|discriminate].
    + intros; tauto.
    + split; [tauto|discriminate].
    + intros j N. rewrite W. cbn. intuition congruence.
Qed.

(** A process that does not wait moves on, with the collection changed. *)
Lemma go_inv st i t t' q dm dv : inv st -> nth_error (threads st) i = Some t ->
  at_ t <> BlockM -> at_ t <> BlockV -> at_ t' <> BlockM -> at_ t' <> BlockV ->
  holds t' + dm = holds t ->
  weight t' + dv - Z.of_nat (length q) = weight t - Z.of_nat (length (queue st)) ->
  typed t' -> pinv dm dv (go (set_queue st q) i t').
Proof.
  intros I E B1 B2 B3 B4 H W T. pose proof I as (A1 & A2 & A3 & A4 & A5 & A6 & A7 & A8 & A9 & A10 & A11).
  assert (Nm : ~ In i (mwait st)) by (eapply not_member; eauto).
  assert (Nv : ~ In i (vwait st)) by (eapply not_member; eauto).
  eapply (pinv_change 0 0 dm dv st _ i t _ I E); [reflexivity|..]; cbn [msig mwait vsig vwait queue go set_queue];
    try lia; auto; try (intros; tauto).
Qed.

Lemma set_queue_same st : set_queue st (queue st) = st.
Proof. destruct st; reflexivity. Qed.

Lemma inm_nonempty st i t o r : inv st -> nth_error (threads st) i = Some t -> at_ t = InM ->
  todo t = o :: r -> (o = Next \/ o = Peek) -> queue st <> [].
Proof.
  intros I E A T O. pose proof I as (A1 & A2 & A3 & A4 & _).
  pose proof (wsum_in weight _ weight_ge _ _ E) as W. unfold weight at 1 in W. rewrite A, T in W.
  intros Q. rewrite Q in A4. cbn in A4. destruct O as [-> | ->]; lia.
Qed.

Lemma step_inv st i st' o : inv st -> step st i = Ok (st', o) -> inv st'.
Proof.
  intros I H. unfold step in H. destruct (nth_error (threads st) i) as [t|] eqn:E; [|discriminate].
  pose proof I as (_ & _ & _ & _ & _ & _ & _ & _ & _ & _ & A11). pose proof (A11 _ _ E) as T. unfold typed in T.
  destruct (todo t) as [|x r] eqn:Td; [discriminate|].
  destruct (at_ t) as [| | | | |v|v] eqn:A; try discriminate.
  - destruct x; injection H as <- <-; [apply wait_m_inv|apply wait_v_inv|apply wait_v_inv]; auto; eauto 10.
  - injection H as <- <-. apply wait_m_inv; auto.
  - destruct x.
    + injection H as <- <-. apply (go_inv st i t); auto; try (cbn; congruence).
      * unfold holds. rewrite A. reflexivity.
      * unfold weight. cbn [move at_ todo]. rewrite A, Td, app_length. cbn [length]. lia.
      * left. cbn. rewrite Td. eauto.
    + destruct (queue st) as [|v q] eqn:Q; [discriminate|]. injection H as <- <-.
      apply (go_inv st i t); auto; try (cbn; congruence).
      * unfold holds. rewrite A. reflexivity.
      * unfold weight. cbn [move at_ todo]. rewrite A, Td, Q. cbn [length]. lia.
      * right. cbn. rewrite Td. eauto 10.
    + destruct (queue st) as [|v q] eqn:Q; [discriminate|]. injection H as <- <-.
      rewrite <- (set_queue_same st).
      apply (go_inv st i t); auto; try (cbn; congruence).
      * unfold holds. rewrite A. reflexivity.
      * unfold weight. cbn [move at_ todo]. rewrite A, Td. lia.
      * right. cbn. rewrite Td. eauto 10.
  - assert (K : forall t', at_ t' <> BlockM -> at_ t' <> BlockV -> holds t' = 0 -> weight t' = weight t -> typed t' ->
      inv (signal_m (go st i t'))).
    { intros t' B1 B2 B3 B4 B5. apply signal_m_inv. rewrite <- (set_queue_same st).
      apply (go_inv st i t); auto; try congruence.
      - unfold holds at 2. rewrite A. lia.
      - cbn. lia. }
    assert (Wt : weight t = match x with Next => 0 | _ => 1 end) by (unfold weight; rewrite A, Td; auto).
    destruct x; injection H as <- <-; apply K; try (cbn; discriminate); try reflexivity; try (rewrite Wt; reflexivity);
      try exact Logic.I; unfold typed; cbn; rewrite Td.
    + destruct T as [(v9 & r9 & T1 & T2)|(v9 & r9 & T1 & [T2|T2])]; try discriminate. left. eauto.
    + destruct T as [(v9 & r9 & T1 & T2)|(v9 & r9 & T1 & [T2|T2])]; try discriminate. right. eauto.
  - injection H as <- <-. apply signal_v_inv. rewrite <- (set_queue_same st).
    apply (go_inv st i t); auto; try (cbn; congruence).
    + unfold holds. rewrite A. reflexivity.
    + unfold weight. cbn [finish at_ todo queue set_queue]. rewrite A. lia.
    + exact Logic.I.
Qed.

Lemma step_ok st i : inv st -> step st i <> UB.
Proof.
  intros I H. unfold step in H. destruct (nth_error (threads st) i) as [t|] eqn:E; [|discriminate].
  destruct (todo t) as [|x r] eqn:Td; [discriminate|].
  destruct (at_ t) as [| | | | |v|v] eqn:A; try discriminate; destruct x; try discriminate;
    pose proof (inm_nonempty st i t _ r I E A Td) as N; destruct (queue st); try discriminate; apply N; auto.
Qed.

Lemma run_inv h : forall st st' os, inv st -> run st h = Ok (st', os) -> inv st'.
Proof.
  induction h as [|i h IH]; intros st st' os I H; cbn in H.
  - injection H as <- <-. auto.
  - destruct (step st i) as [[st1 o]| | | |] eqn:E; cbn in H; try discriminate.
    destruct (run st1 h) as [[st2 os2]| | | |] eqn:R; cbn in H; try discriminate.
    injection H as <- <-. eapply IH; [|exact R]. eapply step_inv; eauto.
Qed.

Lemma run_ok h : forall st, inv st -> run st h <> UB.
Proof.
  induction h as [|i h IH]; intros st I H; cbn in H; [discriminate|].
  destruct (step st i) as [[st1 o]| | | |] eqn:E; cbn in H; try discriminate.
  - destruct (run st1 h) as [[st2 os2]| | | |] eqn:R; cbn in H; try discriminate.
    apply (IH st1); auto. eapply step_inv; eauto.
  - eapply step_ok; eauto.
Qed.

Lemma inv_init progs : inv (new_queue progs).
Proof.
  assert (At : forall i t, nth_error (threads (new_queue progs)) i = Some t -> at_ t = Idle).
  { intros i t H. cbn in H. rewrite nth_error_map in H. destruct (nth_error progs i); [|discriminate].
    injection H as <-. reflexivity. }
  unfold inv, pinv.
  rewrite (wsum_zero holds), (wsum_zero weight).
  2,3: intros i t H; apply At in H; unfold holds, weight; rewrite H; auto.
  cbn [msig vsig queue length mwait vwait new_queue].
  split; [lia|]. split; [lia|]. split; [lia|]. split; [lia|]. split; [congruence|]. split; [congruence|].
  split; [constructor|]. split; [constructor|].
  split; [|split].
  - intros i. split; [intros []|]. intros (t & H & B). apply At in H. unfold blockm in B. congruence.
  - intros i. split; [intros []|]. intros (t & H & B). apply At in H. unfold blockv in B. congruence.
  - intros i t H. apply At in H. unfold typed. rewrite H. exact Logic.I.
Qed.
