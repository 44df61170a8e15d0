(** Proofs about RecursionLock. *)
From Verif Require Import Base Locks LocksSpec.
Local Open Scope Z_scope.

Lemma upd_same {A} (f : Z -> A) k v : upd f k v k = v.
Proof. unfold upd. rewrite Z.eqb_refl. auto. Qed.
Lemma upd_other {A} (f : Z -> A) k v x : x <> k -> upd f k v x = f x.
Proof. unfold upd. destruct (Z.eqb_spec x k); congruence. Qed.

(** How a process stands towards the lock. *)
Definition outers (s : list frame) : nat :=
  length (filter (fun f => match fst f with Outer => true | _ => false end) s).
Definition insideb (q : proc) : bool := negb (Nat.eqb (outers (stack q)) 0).
Definition granted (q : proc) : bool :=
  match at_ q with Got true _ | Release => true | _ => false end.
Definition busyb (q : proc) : bool := insideb q || granted q.
Definition blockedb (q : proc) : bool := match at_ q with Blocked _ _ => true | _ => false end.
Definition proc_ok (q : proc) : Prop :=
  (outers (stack q) <= 1)%nat /\ (at_ q <> Normal -> insideb q = false).

Definition inv (st : lock) : Prop :=
  (signals st = 0 \/ signals st = 1) /\
  (forall p q, busyb (procs st p) = true -> busyb (procs st q) = true -> p = q) /\
  (signals st = 1 -> (forall p, busyb (procs st p) = false) /\ waiters st = []) /\
  (forall p, owner st = Some p <-> insideb (procs st p) = true) /\
  (forall p, In p (waiters st) <-> blockedb (procs st p) = true) /\
  NoDup (waiters st) /\
  (forall p, proc_ok (procs st p)).

Lemma outers_In s : outers s <> 0%nat <-> exists b, In (Outer, b) s.
Proof.
  unfold outers. induction s as [|[k a] s IH]; cbn.
  - split; [lia|intros (b & [])].
  - destruct k; cbn.
    + rewrite IH. split; intros (b & H); exists b; [auto|]. destruct H; [congruence|auto].
    + rewrite IH. split; intros (b & H); exists b; [auto|]. destruct H; [congruence|auto].
    + split; [|lia]. intros _. exists a. auto.
Qed.

Lemma inside_iff st p : inside st p <-> insideb (procs st p) = true.
Proof.
  unfold inside, insideb. rewrite <- outers_In. rewrite negb_true_iff, Nat.eqb_neq. tauto.
Qed.

Lemma busy_iff st p : busy st p <-> busyb (procs st p) = true.
Proof.
  unfold busy, busyb, granted. rewrite inside_iff, orb_true_iff.
  assert (X : (exists b, at_ (procs st p) = Got true b) \/ at_ (procs st p) = Release <->
    match at_ (procs st p) with Got true _ | Release => true | _ => false end = true).
  { destruct (at_ (procs st p)) as [|g b|g b|[] b|]; split; try reflexivity; try discriminate;
      try (intros [(x & H)|H]; discriminate); intros _; [left; exists b; reflexivity|right; reflexivity]. }
  rewrite X. tauto.
Qed.

(** A change that concerns one process. [Q] its new state. *)
Lemma inv_change st st' p Q :
  inv st -> procs st' = upd (procs st) p Q ->
  (signals st' = 0 \/ signals st' = 1) ->
  proc_ok Q ->
  (busyb Q = true -> forall q, q <> p -> busyb (procs st q) = false) ->
  (signals st' = 1 -> busyb Q = false /\ (forall q, q <> p -> busyb (procs st q) = false) /\ waiters st' = []) ->
  (owner st' = Some p <-> insideb Q = true) ->
  (forall q, q <> p -> (owner st' = Some q <-> owner st = Some q)) ->
  (In p (waiters st') <-> blockedb Q = true) ->
  (forall q, q <> p -> (In q (waiters st') <-> In q (waiters st))) ->
  NoDup (waiters st') -> inv st'.
Proof.
  intros (I1 & I2 & I3 & I4 & I5 & I6 & I7) E S PQ B1 B2 O1 O2 W1 W2 ND.
  assert (Ep : procs st' p = Q) by (rewrite E; apply upd_same).
  assert (Eo : forall q, q <> p -> procs st' q = procs st q) by (intros; rewrite E; apply upd_other; auto).
  split; [exact S|]. split; [|split; [|split; [|split; [|split]]]].
  - intros a b Ha Hb. destruct (Z.eq_dec a p) as [->|Na], (Z.eq_dec b p) as [->|Nb]; auto.
    + rewrite Ep in Ha. rewrite Eo in Hb by auto. specialize (B1 Ha b Nb). congruence.
    + rewrite Ep in Hb. rewrite Eo in Ha by auto. specialize (B1 Hb a Na). congruence.
    + rewrite Eo in Ha, Hb by auto. auto.
  - intros H. destruct (B2 H) as (X & Y & Z). split; auto.
    intros q. destruct (Z.eq_dec q p) as [->|N]; [rewrite Ep; auto|rewrite Eo; auto].
  - intros q. destruct (Z.eq_dec q p) as [->|N]; [rewrite Ep; auto|rewrite Eo, O2; auto].
  - intros q. destruct (Z.eq_dec q p) as [->|N]; [rewrite Ep; auto|rewrite Eo, W2; auto].
  - exact ND.
  - intros q. destruct (Z.eq_dec q p) as [->|N]; [rewrite Ep; auto|rewrite Eo; auto].
Qed.

Lemma inv_init prog : inv (new_lock prog).
Proof.
  split; [right; reflexivity|]. split; [cbn; discriminate|]. split; [cbn; auto|].
  split; [cbn; intros; split; discriminate|]. split; [cbn; intros; split; [tauto|discriminate]|].
  split; [constructor|]. intros p. split; [cbn; lia|]. cbn. reflexivity.
Qed.

Lemma NoDup_snoc (l : list Z) x : NoDup l -> ~ In x l -> NoDup (l ++ [x]).
Proof.
  induction l as [|y l IH]; cbn; intros ND N.
  - constructor; [auto|constructor].
  - inversion ND; subst. constructor; [rewrite in_app_iff; cbn; intuition congruence|].
    apply IH; tauto.
Qed.

Lemma outers_unwound s : outers (unwound s) = outers s.
Proof.
  unfold outers, unwound. induction s as [|[k a] s IH]; cbn; auto. destruct k; cbn; auto.
Qed.

Lemma In_leave l (p q : Z) : In q (filter (fun x => negb (x =? p)) l) <-> In q l /\ q <> p.
Proof. rewrite filter_In. rewrite negb_true_iff, Z.eqb_neq. tauto. Qed.

Lemma is_owner_iff st p : is_owner st p = true <-> owner st = Some p.
Proof.
  unfold is_owner. destruct (owner st) as [q|]; [|split; discriminate].
  rewrite Z.eqb_eq. split; congruence.
Qed.

(** Leaving the queue of the semaphore for a state in which the process neither
    holds the lock nor waits for it. *)
Lemma inv_leave st p c : inv st -> blockedb (procs st p) = true ->
  (match c with Want _ _ | Got false _ => True | _ => False end) ->
  inv (goto (leave st p) p c (stack (procs st p))).
Proof.
  intros I Bl C. pose proof I as (I1 & I2 & I3 & I4 & I5 & I6 & I7).
  assert (NN : at_ (procs st p) <> Normal) by (unfold blockedb in Bl; destruct (at_ (procs st p)); discriminate).
  destruct (I7 p) as (P1 & P2). specialize (P2 NN).
  assert (Np : In p (waiters st)) by (apply I5; auto).
  assert (B : busyb (mkP c (stack (procs st p))) = false).
  { unfold busyb, insideb, granted in *. cbn [at_ stack]. rewrite P2. destruct c as [| | |[]|]; tauto. }
  eapply (inv_change st _ p _ I); [reflexivity|..]; cbn [signals waiters owner goto leave]; [exact I1|..].
  - split; auto.
  - rewrite B. discriminate.
  - intros H. destruct (I3 H) as (_ & W). rewrite W in Np. destruct Np.
  - rewrite I4. cbn. tauto.
  - intros; tauto.
  - rewrite In_leave. cbn. split; [tauto|]. destruct c as [| | |[]|]; try tauto; discriminate.
  - intros q N. rewrite In_leave. tauto.
  - apply NoDup_filter; auto.
Qed.

(** A step that changes neither the semaphore nor the owner. *)
Lemma inv_local st p c s : inv st -> blockedb (procs st p) = false ->
  (match c with Blocked _ _ => False | _ => True end) ->
  outers s = outers (stack (procs st p)) ->
  granted (mkP c s) = granted (procs st p) \/ granted (mkP c s) = false ->
  (c <> Normal -> insideb (procs st p) = false) ->
  inv (goto st p c s).
Proof.
  intros I Bl C O G NI. pose proof I as (I1 & I2 & I3 & I4 & I5 & I6 & I7).
  assert (Ei : insideb (mkP c s) = insideb (procs st p)) by (unfold insideb; cbn [stack]; rewrite O; auto).
  assert (Eb : busyb (mkP c s) = true -> busyb (procs st p) = true).
  { unfold busyb. rewrite Ei. destruct G as [-> | ->]; auto. rewrite orb_false_r. intros ->. auto. }
  eapply (inv_change st _ p _ I); [reflexivity|..]; cbn [signals waiters owner goto]; [exact I1|..].
  - destruct (I7 p) as (P1 & _). split; [cbn [stack]; lia|]. cbn [at_]. rewrite Ei. exact NI.
  - intros B q N. destruct (busyb (procs st q)) eqn:E; auto. exfalso. apply N. apply I2; auto.
  - intros H. destruct (I3 H) as (X & Y). split; [|auto].
    destruct (busyb (mkP c s)) eqn:E; auto. rewrite (X p) in Eb. discriminate (Eb eq_refl).
  - rewrite Ei. auto.
  - intros; tauto.
  - rewrite I5, Bl. cbn. destruct c; tauto || (split; discriminate).
  - intros; tauto.
  - exact I6.
Qed.

Lemma inv_signal st p : inv st ->
  (* [p] is the process that releases *)
  at_ (procs st p) = Release ->
  inv (signal (goto st p Normal (stack (procs st p)))).
Proof.
  intros I R. pose proof I as (I1 & I2 & I3 & I4 & I5 & I6 & I7).
  assert (Gp : granted (procs st p) = true) by (unfold granted; rewrite R; auto).
  assert (Bp : busyb (procs st p) = true) by (unfold busyb; rewrite Gp; apply orb_true_r).
  destruct (I7 p) as (P1 & P2). assert (Ip : insideb (procs st p) = false) by (apply P2; rewrite R; discriminate).
  assert (S0 : signals st = 0).
  { destruct I1 as [|S1]; auto. destruct (I3 S1) as (X & _). rewrite X in Bp. discriminate. }
  assert (Oth : forall q, q <> p -> busyb (procs st q) = false).
  { intros q N. destruct (busyb (procs st q)) eqn:E; auto. exfalso. apply N. apply I2; auto. }
  set (st1 := goto st p Normal (stack (procs st p))).
  assert (I' : inv st1).
  { apply inv_local; auto. unfold blockedb. rewrite R. auto. }
  assert (NB : forall q, busyb (procs st1 q) = false).
  { intros q. destruct (Z.eq_dec q p) as [->|N].
    - cbn. rewrite upd_same. unfold busyb, granted, insideb in *. cbn [at_ stack]. rewrite Ip. auto.
    - cbn. rewrite upd_other by auto. auto. }
  assert (S1 : signals st1 = 0) by exact S0.
  clearbody st1. clear I I1 I2 I3 I4 I5 I6 I7 P1 P2 Oth.
  pose proof I' as (I1 & I2 & I3 & I4 & I5 & I6 & I7).
  unfold signal. destruct (waiters st1) as [|w r] eqn:W.
  - split; [right; cbn; lia|]. split; [cbn; exact I2|]. split; [cbn; auto|].
    split; [exact I4|]. split; [cbn; exact I5|]. split; [constructor|]. exact I7.
  - assert (Bw : blockedb (procs st1 w) = true) by (apply I5; left; auto).
    inversion I6 as [|? ? Nw NDr]; subst.
    unfold blockedb in Bw. destruct (at_ (procs st1 w)) as [| |g b| |] eqn:Ew; try discriminate.
    destruct (I7 w) as (Q1 & Q2). assert (Iw : insideb (procs st1 w) = false) by (apply Q2; rewrite Ew; discriminate).
    eapply (inv_change st1 _ w _ I'); [reflexivity|..]; cbn [signals waiters owner].
    + auto.
    + split; [exact Q1|]. intros _. exact Iw.
    + intros _ q _. apply NB.
    + rewrite S1. discriminate.
    + rewrite I4. cbn. tauto.
    + intros; tauto.
    + split; [intros X; contradiction|]. cbn. discriminate.
    + intros q N. rewrite W. cbn. intuition congruence.
    + exact NDr.
Qed.

Lemma step_inv st e st' : inv st -> step st e = Ok st' -> inv st'.
Proof.
  intros I H. pose proof I as (I1 & I2 & I3 & I4 & I5 & I6 & I7).
  destruct e as [p|p|p|p]; cbn in H.
  - unfold step_proc in H. destruct (I7 p) as (P1 & P2).
    destruct (at_ (procs st p)) as [|g b|g b|ok b|] eqn:E.
    + (* Normal *)
      assert (Bl : blockedb (procs st p) = false) by (unfold blockedb; rewrite E; auto).
      assert (Gr : granted (procs st p) = false) by (unfold granted; rewrite E; auto).
      destruct (stack (procs st p)) as [|[k [|[|b] r]] t] eqn:Es; [discriminate| | |].
      * destruct k.
        -- injection H as <-. apply inv_local; auto; try (cbn; auto; congruence). rewrite Es. reflexivity.
        -- injection H as <-. apply inv_local; auto; try (cbn; auto; congruence). rewrite Es. reflexivity.
        -- injection H as <-.
           assert (Ot : outers t = 0%nat) by (unfold outers in P1 |- *; cbn in P1; lia).
           assert (Ip : insideb (procs st p) = true).
           { unfold insideb. rewrite Es. reflexivity. }
           assert (Bp : busyb (procs st p) = true) by (unfold busyb; rewrite Ip; auto).
           eapply (inv_change st _ p _ I); [reflexivity|..]; cbn [signals waiters owner goto].
           ++ auto.
           ++ split; [cbn [stack]; lia|]. unfold insideb. cbn [at_ stack]. rewrite Ot. auto.
           ++ intros _ q N. destruct (busyb (procs st q)) eqn:B; auto. exfalso. apply N. apply I2; auto.
           ++ intros S1. destruct (I3 S1) as (X & _). rewrite X in Bp. discriminate.
           ++ split; [discriminate|]. unfold insideb. cbn [at_ stack]. rewrite Ot. discriminate.
           ++ intros q N. split; [discriminate|]. intros O. apply I4 in O.
              exfalso. apply N. apply I2; auto. unfold busyb. rewrite O. auto.
           ++ rewrite I5, Bl. cbn. tauto.
           ++ intros; tauto.
           ++ auto.
      * assert (H' : Ok (goto st p Normal ((k, r) :: t)) = Ok st') by (destruct k; exact H).
        injection H' as <-. apply inv_local; auto; try (cbn; auto; congruence). rewrite Es.
        unfold outers. cbn. destruct k; reflexivity.
      * assert (H' : (if is_owner st p then Ok (goto st p Normal ((Nested, b) :: (k, r) :: t))
                      else Ok (goto st p (Want false b) ((k, r) :: t))) = Ok st') by (destruct k; exact H).
        destruct (is_owner st p) eqn:IO; injection H' as <-.
        -- apply inv_local; auto; try (cbn; auto; congruence). rewrite Es. unfold outers. cbn. destruct k; reflexivity.
        -- apply inv_local; auto; try (cbn; auto; congruence).
           ++ rewrite Es. unfold outers. cbn. destruct k; reflexivity.
           ++ intros _. destruct (insideb (procs st p)) eqn:Ip; auto. exfalso.
              apply I4, is_owner_iff in Ip. congruence.
    + (* Want *)
      specialize (P2 ltac:(discriminate)).
      assert (Bl : blockedb (procs st p) = false) by (unfold blockedb; rewrite E; auto).
      destruct (Z.ltb_spec 0 (signals st)) as [S|S]; injection H as <-.
      * assert (S1 : signals st = 1) by lia. destruct (I3 S1) as (X & W).
        eapply (inv_change st _ p _ I); [reflexivity|..]; cbn [signals waiters owner goto].
        -- lia.
        -- split; auto.
        -- intros _ q _. apply X.
        -- lia.
        -- rewrite I4. cbn. tauto.
        -- intros; tauto.
        -- rewrite I5, Bl. cbn. tauto.
        -- intros; tauto.
        -- auto.
      * assert (S0 : signals st = 0) by lia.
        assert (Np : ~ In p (waiters st)) by (rewrite I5, Bl; discriminate).
        eapply (inv_change st _ p _ I); [reflexivity|..]; cbn [signals waiters owner goto].
        -- auto.
        -- split; auto.
        -- unfold busyb, insideb, granted in *. cbn [at_ stack]. rewrite P2. discriminate.
        -- lia.
        -- rewrite I4. cbn. tauto.
        -- intros; tauto.
        -- rewrite in_app_iff. cbn. tauto.
        -- intros q N. rewrite in_app_iff. cbn. intuition congruence.
        -- apply NoDup_snoc; auto.
    + discriminate.
    + (* Got *)
      specialize (P2 ltac:(discriminate)).
      assert (Bl : blockedb (procs st p) = false) by (unfold blockedb; rewrite E; auto).
      destruct ok; injection H as <-.
      * assert (Bp : busyb (procs st p) = true).
        { unfold busyb, granted. rewrite E. apply orb_true_r. }
        assert (Oth : forall q, q <> p -> busyb (procs st q) = false).
        { intros q N. destruct (busyb (procs st q)) eqn:B; auto. exfalso. apply N. apply I2; auto. }
        assert (O0 : outers (stack (procs st p)) = 0%nat).
        { unfold insideb in P2. rewrite negb_false_iff, Nat.eqb_eq in P2. auto. }
        eapply (inv_change st _ p _ I); [reflexivity|..]; cbn [signals waiters owner goto].
        -- auto.
        -- split; [unfold outers in *; cbn; lia|]. cbn. congruence.
        -- auto.
        -- intros S1. destruct (I3 S1) as (X & _). rewrite X in Bp. discriminate.
        -- split; auto.
        -- intros q N. split; [congruence|]. intros O. apply I4 in O.
           specialize (Oth q N). unfold busyb in Oth. rewrite O in Oth. discriminate.
        -- rewrite I5, Bl. cbn. tauto.
        -- intros; tauto.
        -- auto.
      * apply inv_local; auto; try (cbn; auto; congruence).
    + (* Release *)
      injection H as <-. apply inv_signal; auto.
  - injection H as <-. unfold interrupt.
    destruct (at_ (procs st p)) as [| |g b| |] eqn:E; auto.
    apply inv_leave; auto. unfold blockedb. rewrite E. auto.
  - injection H as <-. unfold terminate. destruct (I7 p) as (P1 & P2).
    destruct (at_ (procs st p)) as [|g b|g b|ok b|] eqn:E.
    + apply inv_local; auto; try (cbn; auto; congruence); [unfold blockedb; rewrite E; auto|apply outers_unwound].
    + apply inv_local; auto; try (cbn; auto; congruence); [unfold blockedb; rewrite E; auto|apply outers_unwound].
    + assert (Bl : blockedb (procs st p) = true) by (unfold blockedb; rewrite E; auto).
      pose proof (inv_leave st p (Want true b) I Bl Logic.I) as I'.
      assert (X : inv (goto (goto (leave st p) p (Want true b) (stack (procs st p))) p Normal (unwound (stack (procs st p))))).
      { apply inv_local; auto; cbn [goto procs]; rewrite upd_same; try (cbn; auto; congruence). apply outers_unwound. }
      destruct X as (X1 & X2 & X3 & X4 & X5 & X6 & X7). cbn [goto procs signals waiters owner leave] in *.
      assert (U : forall q Q Q', upd (upd (procs st) p Q) p Q' q = upd (procs st) p Q' q).
      { intros. unfold upd. destruct (q =? p); auto. }
      split; [exact X1|]. cbn [goto procs signals waiters owner leave].
      split; [intros a c; specialize (X2 a c); rewrite !U in X2; exact X2|].
      split; [intros S1; destruct (X3 S1) as (Y & Z0); split; auto; intros q; specialize (Y q); rewrite U in Y; auto|].
      split; [intros q; specialize (X4 q); rewrite U in X4; auto|].
      split; [intros q; specialize (X5 q); rewrite U in X5; auto|].
      split; [exact X6|]. intros q; specialize (X7 q); rewrite U in X7; auto.
    + specialize (P2 ltac:(discriminate)). destruct ok.
      * apply inv_local; auto; try (cbn; auto; congruence); [unfold blockedb; rewrite E; auto|apply outers_unwound|].
        left. unfold granted. cbn. rewrite E. auto.
      * apply inv_local; auto; try (cbn; auto; congruence); [unfold blockedb; rewrite E; auto|apply outers_unwound].
    + apply inv_local; auto; try (cbn; auto; congruence); [unfold blockedb; rewrite E; auto|apply outers_unwound].
  - injection H as <-. unfold resume.
    destruct (at_ (procs st p)) as [| |g b| |] eqn:E; auto.
    apply inv_leave; auto. unfold blockedb. rewrite E. auto.
Qed.

Lemma run_inv h : forall st st', inv st -> run st h = Ok st' -> inv st'.
Proof.
  induction h as [|e h IH]; intros st st' I H; cbn in H.
  - inversion H; subst; auto.
  - destruct (step st e) as [st1| | | |] eqn:E; cbn in H; try discriminate.
    eapply IH; [|exact H]. eapply step_inv; eauto.
Qed.

(** ** Nothing is lost *)

Definition alive (st : lock) : Prop :=
  signals st = 1 \/ exists p, busyb (procs st p) = true.
Definition flagless (st : lock) : Prop :=
  forall p, match at_ (procs st p) with Want g _ | Blocked g _ => g = false | _ => True end.
Definition sound (st : lock) : Prop := inv st /\ alive st /\ flagless st.

Definition mild (st : lock) (e : event) : Prop :=
  match e with
  | Interrupt _ => False
  | Terminate p => at_ (procs st p) <> Release
  | _ => True
  end.

Lemma alive_keep st st' p Q : alive st -> signals st' = signals st ->
  procs st' = upd (procs st) p Q -> (busyb (procs st p) = true -> busyb Q = true) -> alive st'.
Proof.
  intros [A|(q & A)] S E B; [left; lia|]. right.
  destruct (Z.eq_dec q p) as [->|N].
  - exists p. rewrite E, upd_same. auto.
  - exists q. rewrite E, upd_other by auto. auto.
Qed.

Lemma alive_new st' procs0 p Q : procs st' = upd procs0 p Q -> busyb Q = true -> alive st'.
Proof. intros E B. right. exists p. rewrite E, upd_same. auto. Qed.

Lemma flagless_upd st st' p Q : flagless st -> procs st' = upd (procs st) p Q ->
  match at_ Q with Want g _ | Blocked g _ => g = false | _ => True end -> flagless st'.
Proof.
  intros F E H q. rewrite E. destruct (Z.eq_dec q p) as [->|N].
  - rewrite upd_same. auto.
  - rewrite upd_other by auto. apply F.
Qed.

Lemma busyb_inside q : busyb q = true -> granted q = false -> insideb q = true.
Proof. unfold busyb. intros H G. rewrite G, orb_false_r in H. auto. Qed.

Lemma insideb_busy q : insideb q = true -> busyb q = true.
Proof. unfold busyb. intros ->. auto. Qed.

Lemma step_sound st e st' : sound st -> mild st e -> step st e = Ok st' -> sound st'.
Proof.
  intros (I & A & F) M H. pose proof (step_inv st e st' I H) as I'. split; [exact I'|].
  pose proof I as (I1 & I2 & I3 & I4 & I5 & I6 & I7).
  destruct e as [p|p|p|p]; cbn in H, M; [|contradiction| |].
  - unfold step_proc in H. destruct (I7 p) as (P1 & P2). pose proof (F p) as Fp.
    destruct (at_ (procs st p)) as [|g b|g b|ok b|] eqn:E.
    + assert (Gr : granted (procs st p) = false) by (unfold granted; rewrite E; auto).
      assert (K : forall c s, st' = goto st p c s ->
        (insideb (procs st p) = true -> insideb (mkP c s) = true) ->
        match c with Want g _ | Blocked g _ => g = false | _ => True end -> alive st' /\ flagless st').
      { intros c s -> X Y. split.
        - eapply (alive_keep st _ p); [exact A|reflexivity|reflexivity|].
          intros B. apply insideb_busy. apply X. apply busyb_inside; auto.
        - eapply flagless_upd; [exact F|reflexivity|]. exact Y. }
      destruct (stack (procs st p)) as [|[k [|[|b] r]] t] eqn:Es; [discriminate| | |].
      * destruct k.
        -- injection H as <-. eapply K; [reflexivity| |exact Logic.I]. unfold insideb. rewrite Es. auto.
        -- injection H as <-. eapply K; [reflexivity| |exact Logic.I]. unfold insideb. rewrite Es. auto.
        -- injection H as <-. split.
           ++ eapply alive_new; [reflexivity|]. unfold busyb. apply orb_true_r.
           ++ eapply flagless_upd; [exact F|reflexivity|]. exact Logic.I.
      * assert (H' : Ok (goto st p Normal ((k, r) :: t)) = Ok st') by (destruct k; exact H).
        injection H' as <-. eapply K; [reflexivity| |exact Logic.I]. unfold insideb. rewrite Es.
        destruct k; auto.
      * assert (H' : (if is_owner st p then Ok (goto st p Normal ((Nested, b) :: (k, r) :: t))
                      else Ok (goto st p (Want false b) ((k, r) :: t))) = Ok st') by (destruct k; exact H).
        destruct (is_owner st p); injection H' as <-;
          (eapply K; [reflexivity| |solve [exact Logic.I|reflexivity]]; unfold insideb; rewrite Es; destruct k; auto).
    + subst g. specialize (P2 ltac:(discriminate)).
      destruct (Z.ltb_spec 0 (signals st)) as [S|S]; injection H as <-.
      * split; [eapply alive_new; [reflexivity|]; unfold busyb; apply orb_true_r|].
        eapply flagless_upd; [exact F|reflexivity|]. exact Logic.I.
      * split; [|eapply flagless_upd; [exact F|reflexivity|]; reflexivity].
        eapply (alive_keep st _ p); [exact A|reflexivity|reflexivity|].
        unfold busyb, granted. rewrite P2, E. discriminate.
    + discriminate.
    + specialize (P2 ltac:(discriminate)). destruct ok; injection H as <-.
      * split; [eapply alive_new; [reflexivity|]; reflexivity|].
        eapply flagless_upd; [exact F|reflexivity|]. exact Logic.I.
      * split; [|eapply flagless_upd; [exact F|reflexivity|]; exact Logic.I].
        eapply (alive_keep st _ p); [exact A|reflexivity|reflexivity|].
        unfold busyb, granted. rewrite P2, E. discriminate.
    + injection H as <-. specialize (P2 ltac:(discriminate)).
      assert (Bp : busyb (procs st p) = true) by (unfold busyb, granted; rewrite E; apply orb_true_r).
      assert (S0 : signals st = 0).
      { destruct I1 as [|S1]; auto. destruct (I3 S1) as (X & _). rewrite X in Bp. discriminate. }
      unfold signal. cbn [waiters goto]. destruct (waiters st) as [|w r] eqn:W.
      * split; [left; cbn; lia|]. eapply flagless_upd; [exact F|reflexivity|]. exact Logic.I.
      * assert (Bw : blockedb (procs st w) = true) by (apply I5; left; auto).
        assert (Nw : w <> p).
        { intros ->. unfold blockedb in Bw. rewrite E in Bw. discriminate. }
        pose proof (F w) as Fw. cbn [procs goto]. rewrite upd_other by auto.
        unfold blockedb in Bw. destruct (at_ (procs st w)) as [| |g b| |] eqn:Ew; try discriminate.
        subst g. split.
        -- eapply alive_new; [reflexivity|]. unfold busyb. apply orb_true_r.
        -- assert (F1 : flagless (goto st p Normal (stack (procs st p)))).
           { eapply flagless_upd; [exact F|reflexivity|]. exact Logic.I. }
           eapply (flagless_upd _ _ w _ F1); [reflexivity|]. exact Logic.I.
  - injection H as <-. destruct (I7 p) as (P1 & P2). unfold terminate in *.
    assert (U : forall c, insideb (procs st p) = true -> insideb (mkP c (unwound (stack (procs st p)))) = true).
    { intros c. unfold insideb. cbn [stack]. rewrite outers_unwound. auto. }
    destruct (at_ (procs st p)) as [|g b|g b|ok b|] eqn:E; try (specialize (P2 ltac:(discriminate))).
    + split; [|eapply flagless_upd; [exact F|reflexivity|]; exact Logic.I].
      eapply (alive_keep st _ p); [exact A|reflexivity|reflexivity|].
      intros B. apply insideb_busy, U. apply busyb_inside; auto. unfold granted. rewrite E. auto.
    + split; [|eapply flagless_upd; [exact F|reflexivity|]; exact Logic.I].
      eapply (alive_keep st _ p); [exact A|reflexivity|reflexivity|].
      unfold busyb, granted. rewrite P2, E. discriminate.
    + split; [|eapply flagless_upd; [exact F|reflexivity|]; exact Logic.I].
      eapply (alive_keep st _ p); [exact A|reflexivity|reflexivity|].
      unfold busyb, granted. rewrite P2, E. discriminate.
    + destruct ok.
      * split; [|eapply flagless_upd; [exact F|reflexivity|]; exact Logic.I].
        eapply alive_new; [reflexivity|]. unfold busyb. apply orb_true_r.
      * split; [|eapply flagless_upd; [exact F|reflexivity|]; exact Logic.I].
        eapply (alive_keep st _ p); [exact A|reflexivity|reflexivity|].
        unfold busyb, granted. rewrite P2, E. discriminate.
    + congruence.
  - injection H as <-. destruct (I7 p) as (P1 & P2). unfold resume in *.
    destruct (at_ (procs st p)) as [|g b|g b|ok b|] eqn:E; auto.
    specialize (P2 ltac:(discriminate)).
    split; [|eapply flagless_upd; [exact F|reflexivity|]; exact Logic.I].
    eapply (alive_keep st _ p); [exact A|reflexivity|reflexivity|].
    unfold busyb, granted. rewrite P2, E. discriminate.
Qed.

Lemma sound_init prog : sound (new_lock prog).
Proof. split; [apply inv_init|]. split; [left; reflexivity|]. intros p. exact Logic.I. Qed.

Lemma run_sound h : forall st st', sound st -> gentle st h -> run st h = Ok st' -> sound st'.
Proof.
  induction h as [|e h IH]; intros st st' I G H; cbn in H, G.
  - injection H as <-. auto.
  - destruct (step st e) as [st1| | | |] eqn:E; cbn in H; try discriminate.
    destruct G as (M & G). eapply IH; [|exact G|exact H]. eapply step_sound; eauto.
Qed.

Lemma plain_gentle h : forall st, forallb plain h = true -> gentle st h.
Proof.
  induction h as [|e h IH]; intros st H; cbn in *; auto.
  apply andb_true_iff in H as (P & H). split.
  - destruct e; auto; discriminate.
  - destruct (step st e); auto.
Qed.

Lemma sound_free st : sound st -> (forall p, ~ busy st p) -> signals st = 1 /\ waiters st = [].
Proof.
  intros ((I1 & I2 & I3 & _) & A & _) N. destruct A as [A|(p & A)].
  - split; auto. apply I3. auto.
  - exfalso. apply (N p). apply busy_iff. auto.
Qed.

Lemma sound_waits st p : sound st -> waits st p -> exists q, q <> p /\ busy st q.
Proof.
  intros (I & A & _) (g & b & W). pose proof I as (I1 & I2 & I3 & I4 & I5 & I6 & I7).
  assert (B : In p (waiters st)) by (apply I5; unfold blockedb; rewrite W; auto).
  destruct A as [A|(q & A)].
  - destruct (I3 A) as (_ & X). rewrite X in B. destruct B.
  - exists q. split; [|apply busy_iff; auto]. intros ->.
    destruct (I7 p) as (_ & P). unfold busyb, granted in A. rewrite W in A. rewrite P in A; [discriminate|congruence].
Qed.

Lemma busy_steps st p : inv st -> busy st p -> exists st', step st (Step p) = Ok st'.
Proof.
  intros I B. pose proof I as (I1 & I2 & I3 & I4 & I5 & I6 & I7). apply busy_iff in B.
  cbn. unfold step_proc. destruct (I7 p) as (P1 & P2).
  destruct (at_ (procs st p)) as [|g b|g b|ok b|] eqn:E.
  - assert (X : insideb (procs st p) = true) by (apply busyb_inside; auto; unfold granted; rewrite E; auto).
    destruct (stack (procs st p)) as [|[k [|[|b] r]] t] eqn:Es.
    + unfold insideb in X. rewrite Es in X. discriminate.
    + destruct k; eauto.
    + destruct k; eauto.
    + destruct k; destruct (is_owner st p); eauto.
  - destruct (0 <? signals st); eauto.
  - exfalso. unfold busyb, granted in B. rewrite E, P2 in B by discriminate. discriminate.
  - destruct ok; eauto.
  - eauto.
Qed.

(** ** Nesting *)

Definition based (s : list frame) : Prop := forall f, In f s -> fst f = Base.
Fixpoint shape (s : list frame) : Prop :=
  match s with
  | [] => True
  | (Nested, _) :: t => shape t /\ outers t = 1%nat
  | _ :: t => based t
  end.

Lemma based_outers s : based s -> outers s = 0%nat.
Proof.
  unfold outers. induction s as [|[k a] s IH]; intros B; auto.
  pose proof (B (k, a) (or_introl eq_refl)) as X. cbn in X. subst k. cbn. apply IH.
  intros f H. apply B. right. auto.
Qed.

Lemma shape_flat s : shape s -> outers s = 0%nat -> based s.
Proof.
  destruct s as [|[[] a] t]; cbn; intros S O.
  - intros f [].
  - intros f [<-|H]; auto.
  - unfold outers in O. cbn in O. unfold outers in S. lia.
  - discriminate.
Qed.

Lemma shape_body k a b t : shape ((k, a) :: t) -> shape ((k, b) :: t).
Proof. destruct k; auto. Qed.

Lemma shape_unwound s : shape s -> shape (unwound s).
Proof.
  induction s as [|[k a] t IH]; cbn; auto.
  assert (X : based t -> based (unwound t)).
  { intros B f H. unfold unwound in H. apply in_map_iff in H as (g & <- & H). cbn. auto. }
  destruct k; auto. intros (S & O). split; [auto|]. change (outers (unwound t) = 1%nat).
  rewrite outers_unwound. auto.
Qed.

Definition shaped (st : lock) : Prop := forall p, shape (stack (procs st p)).

Lemma shaped_upd st st' p Q : shaped st -> procs st' = upd (procs st) p Q -> shape (stack Q) -> shaped st'.
Proof.
  intros F E H q. rewrite E. destruct (Z.eq_dec q p) as [->|N].
  - rewrite upd_same. auto.
  - rewrite upd_other by auto. apply F.
Qed.

Lemma step_shaped st e st' : inv st -> shaped st -> step st e = Ok st' -> shaped st'.
Proof.
  intros I Sh H. pose proof I as (I1 & I2 & I3 & I4 & I5 & I6 & I7).
  destruct e as [p|p|p|p]; cbn in H.
  - unfold step_proc in H. pose proof (Sh p) as Sp. destruct (I7 p) as (P1 & P2).
    destruct (at_ (procs st p)) as [|g b|g b|ok b|] eqn:E.
    + destruct (stack (procs st p)) as [|[k [|[|b] r]] t] eqn:Es; [discriminate| | |].
      * assert (St : shape t).
        { destruct k; cbn in Sp; try tauto; destruct t as [|[k a] t]; cbn; auto;
            pose proof (Sp _ (or_introl eq_refl)) as X; cbn in X; subst k; intros f Hf; apply Sp; right; auto. }
        destruct k; injection H as <-; (eapply shaped_upd; [exact Sh|reflexivity|exact St]).
      * assert (H' : Ok (goto st p Normal ((k, r) :: t)) = Ok st') by (destruct k; exact H).
        injection H' as <-. eapply shaped_upd; [exact Sh|reflexivity|]. cbn [stack]. eapply shape_body; eauto.
      * assert (H' : (if is_owner st p then Ok (goto st p Normal ((Nested, b) :: (k, r) :: t))
                      else Ok (goto st p (Want false b) ((k, r) :: t))) = Ok st') by (destruct k; exact H).
        destruct (is_owner st p) eqn:IO; injection H' as <-.
        -- eapply shaped_upd; [exact Sh|reflexivity|]. cbn [stack]. split; [eapply shape_body; eauto|].
           apply is_owner_iff, I4 in IO. unfold insideb in IO. rewrite Es in IO.
           rewrite negb_true_iff, Nat.eqb_neq in IO. unfold outers in *. destruct k; cbn in *; lia.
        -- eapply shaped_upd; [exact Sh|reflexivity|]. cbn [stack]. eapply shape_body; eauto.
    + destruct (0 <? signals st); injection H as <-; (eapply shaped_upd; [exact Sh|reflexivity|exact Sp]).
    + discriminate.
    + destruct ok; injection H as <-; (eapply shaped_upd; [exact Sh|reflexivity|]); [|exact Sp].
      cbn. apply shape_flat; auto. specialize (P2 ltac:(discriminate)).
      unfold insideb in P2. rewrite negb_false_iff, Nat.eqb_eq in P2. auto.
    + injection H as <-.
      assert (S1 : shaped (goto st p Normal (stack (procs st p)))).
      { eapply shaped_upd; [exact Sh|reflexivity|exact Sp]. }
      unfold signal. destruct (waiters _) as [|w r]; [exact S1|].
      eapply (shaped_upd _ _ w _ S1); [reflexivity|].
      destruct (at_ (procs (goto st p Normal (stack (procs st p))) w)); apply (S1 w).
  - injection H as <-. unfold interrupt. destruct (at_ (procs st p)); auto.
    eapply shaped_upd; [exact Sh|reflexivity|apply Sh].
  - injection H as <-. unfold terminate. pose proof (shape_unwound _ (Sh p)) as U.
    destruct (at_ (procs st p)) as [|g b|g b|[] b|]; (eapply shaped_upd; [exact Sh|reflexivity|exact U]).
  - injection H as <-. unfold resume. destruct (at_ (procs st p)); auto.
    eapply shaped_upd; [exact Sh|reflexivity|apply Sh].
Qed.

Lemma run_shaped h : forall st st', inv st -> shaped st -> run st h = Ok st' -> shaped st'.
Proof.
  induction h as [|e h IH]; intros st st' I S H; cbn in H.
  - injection H as <-. auto.
  - destruct (step st e) as [st1| | | |] eqn:E; cbn in H; try discriminate.
    eapply IH; [| |exact H]; [eapply step_inv; eauto|eapply step_shaped; eauto].
Qed.

Lemma shaped_init prog : shaped (new_lock prog).
Proof. intros p. cbn. intros f []. Qed.
